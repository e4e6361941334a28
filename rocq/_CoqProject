-Q theories Verif

theories/MBase.v
theories/MSink.v
theories/MVarint.v
theories/MTypes.v
theories/MFloat.v
theories/MEnc.v
theories/MStats.v
theories/MChunk.v
theories/MMurmur.v
theories/MBloom.v
theories/MIndex.v
theories/MIo.v
theories/MWriter.v
theories/MSchema.v
theories/MMlog.v
theories/MSync.v
theories/TFile.v
theories/TCodec.v
theories/TMlog.v
theories/SFormat.v
theories/SDriver.v
theories/PBase.v
theories/PVarint.v
theories/PPack.v
theories/PTs2.v
theories/PCol.v
theories/PropertiesCodec.v
theories/SStats.v
theories/PStats.v
theories/PStats2.v
theories/PFloat.v
theories/PropertiesStats.v
theories/PSink.v
theories/PCrash.v
theories/PropertiesSink.v
theories/SMlog.v
theories/SSync.v
theories/PMlog.v
theories/PSync.v
theories/PropertiesSync.v
theories/PropertiesProtocol.v
theories/SReader.v
theories/SChunk.v
theories/PChunk.v
theories/PropertiesChunk.v
theories/PMap.v
theories/SHist.v
theories/SLarge.v
theories/PFlush.v
theories/PWriter.v
theories/PRefine.v
theories/PScan.v
theories/POffsets.v
theories/PHist.v
theories/PBisim.v
theories/PCompare.v
theories/PMem.v
theories/PropertiesWriter.v
theories/SSchema.v
theories/PSchema.v
theories/PropertiesSchema.v
theories/SMurmur.v
theories/PMurmur.v
theories/SBloom.v
theories/PBloom.v
theories/PropertiesBloom.v
theories/PPanic.v
theories/PDeepFile.v
theories/PropertiesIndex.v
theories/PropertiesClose.v
theories/SIndex.v
theories/PIndex.v
theories/PDeep.v
theories/PSeries.v
theories/PLookup.v
theories/PClose.v
theories/PFile.v
theories/PFoot.v
theories/PStored.v
theories/PProfile.v
theories/PropertiesProfile.v
theories/PFloat32.v
theories/SPage.v
theories/PPage.v
theories/PropertiesPage.v
theories/PSize.v
theories/PBound.v
theories/PropertiesBound.v
theories/MFfi.v
theories/SFfi.v
theories/PFfi.v
theories/MPy.v
theories/SPy.v
theories/PPy.v
theories/PropertiesFfi.v
theories/SComp.v
theories/PComp.v
theories/PropertiesComp.v
theories/MThrift.v
theories/SThrift.v
theories/PThrift.v
theories/PThriftSync.v
theories/PropertiesThrift.v
theories/PFloat64.v
theories/SSize.v
theories/PFileSize.v
theories/SSession.v
theories/PSession.v
theories/PDeepSession.v
theories/PropertiesDeep.v
theories/PropertiesSize.v
theories/MExample.v
theories/SExample.v
theories/SBuild.v
theories/PBuild.v
theories/PExample.v
theories/PropertiesExample.v
theories/SReclose.v
theories/SAgain.v
theories/PReclose.v
theories/PRecloseIndex.v
theories/PRecloseFile.v
theories/PAgainClose.v
theories/PAgain.v
theories/PropertiesReclose.v
theories/SLayout.v
theories/PLayoutCol.v
theories/PLayoutStats.v
theories/PLayoutChunk.v
theories/PLayoutFile.v
theories/PLayoutIndex.v
theories/PLayoutRows.v
theories/PLayoutFilter.v
theories/PLayoutClose.v
theories/PLayoutSession.v
theories/PLayoutProps.v
theories/PropertiesLayout.v
theories/SComplete.v
theories/PComplete.v
theories/PropertiesComplete.v
theories/SFault.v
theories/PFault.v
theories/PLedger.v
theories/PropertiesFault.v
theories/SDebug.v
theories/PDebugHash.v
theories/PDebugCol.v
theories/PDebug.v
theories/PropertiesDebug.v
theories/SAmple.v
theories/PLarge.v
theories/SBuffer.v
theories/PBuffer.v
theories/PBufferCase.v
theories/PropertiesLarge.v
theories/PropertiesBuffer.v
theories/SAgainReply.v
theories/PAgainReply.v
theories/PropertiesAgain.v
theories/SDots.v
theories/PDots.v
theories/PDotsClose.v
theories/SDotsReply.v
theories/PDotsReply.v
theories/PropertiesDots.v
theories/SDotsIndex.v
theories/PDotsIndex.v
theories/PDotsReach.v
theories/PropertiesDotsIndex.v
theories/SFfiExact.v
theories/PFfiAsked.v
theories/PFfiExact.v
theories/PropertiesFfiExact.v
theories/MSyncMain.v
theories/SSyncMain.v
theories/PSyncMain.v
theories/PropertiesSyncMain.v
theories/MErrors.v
theories/PErrors.v
theories/PropertiesErrors.v
theories/MPyMain.v
theories/SPyMain.v
theories/PPyMain.v
theories/PropertiesPyMain.v
theories/PropertiesBuild.v
theories/SSnappy.v
theories/PSnappy.v
theories/PropertiesSnappy.v
theories/TRead.v
theories/SOrder.v
theories/POrder.v
theories/PropertiesOrder.v
theories/MMlogRun.v
theories/SMlogRun.v
theories/PMlogRun.v
theories/PropertiesMlogRun.v
theories/SMany.v
theories/PMany.v
theories/PManyClose.v
theories/PManyIndex.v
theories/PManyLost.v
theories/PropertiesMany.v
theories/SVarRead.v
theories/PVarRead.v
theories/PropertiesVarRead.v
theories/SCause.v
theories/PCause.v
theories/PCauseIo.v
theories/PCalm.v
theories/PLean.v
theories/PropertiesCause.v
