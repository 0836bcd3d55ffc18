-Q theories Verif
theories/Base.v
theories/Num.v
theories/BaseFacts.v
theories/F64Facts.v
theories/RFacts.v
theories/NDArray.v
theories/GridModel.v
theories/GridSpec.v
theories/GridFacts.v
theories/CartProofs.v
theories/CartR.v
theories/GridOps.v
theories/GridR.v
theories/PropertiesGrid.v
theories/CylProofs.v
theories/VecProofs.v
theories/PropertiesCyl.v
theories/PolarR.v
theories/SelModel.v
theories/PropertiesSel.v
theories/F64Floor.v
theories/DataModel.v
theories/DataSpec.v
theories/DataProofs.v
theories/DataLoad.v
theories/PropertiesData.v
theories/FunModel.v
theories/FunSpec.v
theories/FunProofs.v
theories/FunMgr.v
theories/FunField.v
theories/PropertiesFun.v
theories/FunOcc.v
theories/FunHist.v
theories/FunMom.v
theories/FunTemp.v
theories/FunDisp.v
theories/MixModel.v
theories/FunMix.v
theories/FunLacey.v
theories/FunMsd.v
theories/CondModel.v
theories/FunExtract.v
theories/FunTrack.v
theories/FunCirc.v
theories/FunCirc2.v
theories/ConvModel.v
theories/ConvSort.v
theories/ConvInterp.v
theories/ConvVel.v
theories/ConvCsv.v
theories/PropertiesCsv.v
theories/ConvVtk.v
theories/ConvIds.v
theories/ConvMulti.v
theories/ConvIdChain.v
theories/PropertiesMulti.v
theories/ConvFitted.v
theories/LibConvModel.v
theories/PropertiesLibConv.v
theories/PyModel.v
theories/PyItem.v
theories/PyStat.v
theories/PlotModel.v
theories/PlotProofs.v
theories/PropertiesPlot.v
theories/PropertiesMap.v
theories/PropertiesParity.v
theories/PropertiesArrow.v
theories/PropertiesPlotCheck.v
theories/PyGridModel.v
theories/PropertiesPyGrid.v
theories/FunRefine.v
theories/SessionModel.v
theories/SessionSpec.v
theories/SessionProofs.v
theories/PropertiesSession.v
theories/PropertiesPipeline.v
theories/CompModel.v
theories/PropertiesComp.v
theories/PropertiesAnswers.v
theories/H5Model.v
theories/PropertiesH5.v
theories/FloatErr.v
theories/PropertiesFloat.v
theories/FloatSum.v
theories/PropertiesMean.v
theories/VGridModel.v
theories/PropertiesWrap.v
theories/ParModel.v
theories/PropertiesPar.v
theories/CylFloat.v
theories/PropertiesCylFloat.v
theories/FloatCalc.v
theories/FloatVar.v
theories/FloatNd.v
theories/PropertiesVar.v
theories/PropertiesExact.v
theories/PropertiesHistFloat.v
theories/PropertiesMixFloat.v
theories/PropertiesMsdFloat.v
theories/PropertiesResample.v
theories/PropertiesVelocity.v
theories/PropertiesSmooth.v
theories/PropertiesCylFields.v
theories/PropertiesSlice.v
theories/PropertiesColumns.v
theories/PropertiesRecover.v
theories/PropertiesDepth.v
theories/PropertiesOccFloat.v
theories/PropertiesHomog.v
theories/PropertiesStat.v
theories/PropertiesParts.v
theories/PropertiesScale.v
theories/PropertiesUnits.v
theories/PropertiesAgree.v
theories/PropertiesFrames.v
theories/PropertiesScale2.v
theories/PropertiesDefault.v
theories/PropertiesCases.v
theories/PropertiesCylUnits.v
theories/PropertiesRenumber.v
theories/PropertiesTracks.v
theories/PropertiesAll.v
theories/PropertiesFirst.v
theories/PropertiesWhole.v
