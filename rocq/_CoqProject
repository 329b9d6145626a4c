-Q theories Verif
theories/Py.v
theories/Num.v
theories/BBoxModel.v
theories/BBoxSpec.v
theories/BBoxProofs.v
theories/BBoxProps.v
theories/BufferModel.v
theories/BufferSpec.v
theories/BufferProofs.v
theories/BufferProps.v
theories/SimplifyModel.v
theories/SimplifySpec.v
theories/SimplifyProofs.v
theories/ClosedProofs.v
theories/SnapProofs.v
theories/SimplifyProps.v
theories/VlvModel.v
theories/VlvProofs.v
theories/VlvProps.v
theories/Utf8Model.v
theories/GridModel.v
theories/Utf8Proofs.v
theories/RoundProofs.v
theories/GridProofs.v
theories/GridSpec.v
theories/GridProps.v
theories/PfModel.v
theories/PfProofs.v
theories/PfSpec.v
theories/PfExact.v
theories/PfAccept.v
theories/PfHist.v
theories/FloatLib.v
theories/PfFloat.v
theories/PfFinal.v
theories/PfProps.v
theories/StrModel.v
theories/StrProofs.v
theories/RgModel.v
theories/RgSpec.v
theories/RgProofs.v
theories/RgProps.v
theories/RasterModel.v
theories/RasterSpec.v
theories/RasterLine.v
theories/RasterCanvas.v
theories/RasterFill.v
theories/RasterScan.v
theories/RasterApi.v
theories/RasterMore.v
theories/RasterGlue.v
theories/RasterProps.v
theories/RealNum.v
theories/StatsModel.v
theories/StatsSpec.v
theories/StatsCache.v
theories/StatsCalls.v
theories/StatsReal.v
theories/StatsProps.v
theories/TableModel.v
theories/TableSpec.v
theories/TableProofs.v
theories/TableFile.v
theories/Text.v
theories/TableProps.v
theories/GradientModel.v
theories/GradientSpec.v
theories/GradientProofs.v
theories/GradientProps.v
theories/NamesModel.v
theories/NamesSpec.v
theories/NamesProofs.v
theories/NamesMatch.v
theories/NamesJaro.v
theories/NamesProps.v
theories/ProjModel.v
theories/GeoModel.v
theories/GeoSpec.v
theories/TrigLib.v
theories/GeoProofs.v
theories/GeoCompass.v
theories/GeoCentroid.v
theories/ProjProofs.v
theories/ProjIter.v
theories/ProjEckert.v
theories/ProjFloat.v
theories/ProjScale.v
theories/GeoGlue.v
theories/ProjGlue.v
theories/GeoProps.v
theories/ProjProps.v
theories/TqdmModel.v
theories/TqdmSpec.v
theories/TqdmProofs.v
theories/TqdmTrace.v
theories/TqdmRun.v
theories/TqdmFloat.v
theories/TqdmProps.v
theories/FrameModel.v
theories/FrameSpec.v
theories/FrameProofs.v
theories/FramePlan.v
theories/FrameCase.v
theories/FrameFloat.v
theories/FrameProps.v
theories/VectorModel.v
theories/PsSpec.v
theories/QcNum.v
theories/PsProofs.v
theories/VectorSpec.v
theories/PsText.v
theories/PsImage.v
theories/PsHead.v
theories/VectorProofs.v
theories/VectorSave.v
theories/VectorSpecR.v
theories/VectorPage.v
theories/VectorApi.v
theories/VectorProps.v
theories/ShpFile.v
theories/ShpWriterModel.v
theories/ShpReaderModel.v
theories/ShpLib.v
theories/ShpSpec.v
theories/ShpWriterProofs.v
theories/ShpSave.v
theories/ShpRead.v
theories/ShpApi.v
theories/ShpCalls.v
theories/ShpRound.v
theories/ShpSuccess.v
theories/ShpOutcome.v
theories/ShpTwice.v
theories/ShpPrograms.v
theories/ShpProps.v
theories/ShpTableSpec.v
theories/ShpDbfWrite.v
theories/ShpDbfRead.v
theories/ShpTablePrograms.v
theories/ShpTable.v
theories/ShpPairs.v
theories/ShpNames.v
theories/ShpTableProps.v
theories/ShpGeoModel.v
theories/ShpGeoSpec.v
theories/ShpGeo.v
theories/ShpGeoFloat.v
theories/ShpGeoView.v
theories/ShpOrder.v
theories/ShpGeoEnd.v
theories/ShpGeoProps.v
theories/ShpEditorModel.v
theories/ShpEditor.v
theories/ShpEditPoint.v
theories/ShpEditSave.v
theories/ShpResave.v
theories/ShpRetable.v
theories/ShpEditOpen.v
theories/ShpEditorSpec.v
theories/ShpEditorProps.v
theories/ExportModel.v
theories/ExportSpec.v
theories/ExportProofs.v
theories/ExportBox.v
theories/ExportProps.v
theories/GeoForward.v
theories/PfErrModel.v
theories/PfErrSpec.v
theories/PfErr.v
theories/PfErrTrip.v
theories/Sf2pfModel.v
theories/Sf2pf.v
theories/Sf2pfProps.v
theories/ShpHostileSpec.v
theories/ShpHostile.v
theories/ShpHostileProps.v
theories/ShpHostileDbf.v
theories/PfHostile.v
theories/PfHostileSpec.v
theories/PfHostileProps.v
theories/BBoxFloatSpec.v
theories/BBoxFloat.v
theories/BBoxFloatProps.v
theories/ShpFloatText.v
theories/ShpCellSpec.v
theories/ShpCell.v
theories/ShpCellProps.v
theories/VectorAsked.v
theories/PfFileSpec.v
theories/PfFile.v
theories/PfFileProps.v
theories/ShpBytesSpec.v
theories/ShpBytes.v
theories/ShpBytesRecord.v
theories/ShpBytesBack.v
theories/ShpBytesFile.v
theories/ShpBytesUse.v
theories/ShpBytesProps.v
theories/PfFloatNorm.v
theories/PfFloatSpec.v
theories/PfFloatEnds.v
theories/PfFloatTrip.v
theories/PfFloatBack.v
theories/PfFloatAccept.v
theories/PfFloatProps.v
theories/RasterOutSpec.v
theories/RasterOut.v
theories/RasterOutProps.v
theories/ProjMapSpec.v
theories/ProjMap.v
theories/ProjMapProps.v
theories/ShpListSpec.v
theories/ShpList.v
theories/ShpListProps.v
theories/RasterAA.v
theories/RasterAASpec.v
theories/RasterAALine.v
theories/RasterAACore.v
theories/RasterAAModel.v
theories/RasterAAWhole.v
theories/RasterAACanvas.v
theories/RasterAAEdge.v
theories/RasterAAProps.v
theories/GradientFloatSpec.v
theories/GradientFloat.v
theories/GradientFloatProps.v
theories/GridFloat.v
theories/GridFloatSpec.v
theories/GridFloatProps.v
theories/StatsFloatModel.v
theories/StatsFloatLib.v
theories/StatsFloatSpec.v
theories/StatsFloatCalls.v
theories/StatsFloat.v
theories/StatsFloatApi.v
theories/StatsFloatProps.v
theories/NearestFloat.v
theories/SimplifyFloatModel.v
theories/SimplifyFloatSpec.v
theories/SimplifyFloat.v
theories/SimplifyFloatApi.v
theories/SimplifyFloatProps.v
theories/AngleFloat.v
theories/AngleFloatProps.v
theories/ScanFloatSpec.v
theories/ScanFloat.v
theories/ScanFloatApi.v
theories/ScanFloatProps.v
theories/NamesFloatSpec.v
theories/NamesFloat.v
theories/NamesFloatJaro.v
theories/NamesFloatProps.v
theories/BBoxScaleSpec.v
theories/BBoxScale.v
theories/BBoxHypotModel.v
theories/BBoxHypot.v
theories/BBoxScaleProps.v
theories/CompassFloatModel.v
theories/CompassFloat.v
theories/CompassFloatSpec.v
theories/CompassFloatProps.v
theories/ReprModel.v
theories/ReprSpec.v
theories/ReprProofs.v
theories/ReprProps.v
theories/StatsFloatGini.v
theories/StatsFloatGiniApi.v
theories/StatsFloatGiniProps.v
theories/VectorFloatSpec.v
theories/VectorFloat.v
theories/VectorFloatPage.v
theories/VectorFloatProps.v
theories/GeoConvexSpec.v
theories/GeoConvex.v
theories/GeoConvexProps.v
theories/RgFileSpec.v
theories/RgFile.v
theories/RgFileProps.v
theories/FloatTextModel.v
theories/FloatTextSpec.v
theories/FloatText.v
theories/FloatTextRound.v
theories/FloatTextOrder.v
theories/FloatTextProps.v
theories/FloatReprModel.v
theories/FloatReprDigits.v
theories/FloatReprText.v
theories/FloatReprTable.v
theories/FloatReprProps.v
theories/NumTextModel.v
theories/NumTextSpec.v
theories/NumText.v
theories/NumTextProps.v
theories/PsNumModel.v
theories/PsNumSpec.v
theories/PsNum.v
theories/PsNumProps.v
theories/JsonModel.v
theories/JsonSpec.v
theories/Json.v
theories/JsonProps.v
theories/FrameFloatModel.v
theories/FrameFloatSpec.v
theories/FrameAgain.v
theories/FrameFloatProps.v
theories/FloorDivModel.v
theories/FloorDivSpec.v
theories/FloorDiv.v
theories/FloorDivProps.v
theories/MeterFloat.v
theories/MeterFloatSpec.v
theories/MeterFloatProps.v
