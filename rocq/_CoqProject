-Q theories Verif
theories/Base.v
theories/Output.v
theories/Types.v
theories/Scheduler.v
theories/Reporter.v
theories/DistinctReports.v
theories/Keymap.v
theories/SimpleKeys.v
theories/TapHold.v
theories/TapDance.v
theories/Sticky.v
theories/CapsWord.v
theories/Layered.v
theories/Automation.v
theories/Chorded.v
theories/Composite.v
theories/Split.v
theories/Slice.v
theories/CApi.v
theories/Observed.v
theories/BaseFacts.v
theories/SpecOutput.v
theories/OutputFacts.v
theories/PropertiesOutput.v
theories/SpecReporter.v
theories/ReporterFacts.v
theories/PropertiesReporter.v
theories/SpecScheduler.v
theories/SchedulerFacts.v
theories/PropertiesScheduler.v
theories/KeymapFacts.v
theories/SpecKeymap.v
theories/KeymapInv.v
theories/WatchFacts.v
theories/KeymapHist.v
theories/KeymapQueue.v
theories/KeymapStuck.v
theories/KeymapCalls.v
theories/KeymapRelease.v
theories/SpecComposite.v
theories/CompositeFacts.v
theories/KeymapApi.v
theories/Samples.v
theories/PropertiesKeymap.v
theories/SpecTap.v
theories/TapFacts.v
theories/KeymapCtx.v
theories/CtxFacts.v
theories/KeymapHeld.v
theories/TapTime.v
theories/PropertiesTap.v
theories/KeymapFuture.v
theories/SpecLayer.v
theories/LayerFacts.v
theories/PropertiesLayer.v
theories/SplitFacts.v
theories/PropertiesApi.v
theories/SpecKinds.v
theories/KindFacts.v
theories/KeymapCtxE.v
theories/PropertiesKinds.v
theories/SpecMods.v
theories/PropertiesMods.v
theories/SpecMacro.v
theories/MacroFacts.v
theories/PropertiesMacro.v
theories/SpecChord.v
theories/ChordFacts.v
theories/ChordHeld.v
theories/PropertiesChord.v
theories/SpecPlain.v
theories/PlainFacts.v
theories/PropertiesPlain.v
theories/KeymapLive.v
theories/SpecMacroLive.v
theories/MacroLive.v
theories/PropertiesMacroLive.v
theories/KeymapSwitch.v
theories/SpecLayerHeld.v
theories/LayerHeld.v
theories/PropertiesLayerHeld.v
theories/KeymapSafe.v
theories/SpecReport.v
theories/ReportFacts.v
theories/PropertiesReport.v
theories/Firmware.v
theories/SpecWrap.v
theories/WrapFacts.v
theories/FirmwareFacts.v
theories/FirmwareLive.v
theories/PropertiesWrap.v
theories/PropertiesFirmware.v
theories/KeymapSafeCalls.v
theories/KeymapLedger.v
theories/SpecVirtual.v
theories/CapsSticky.v
theories/PropertiesVirtual.v
theories/SpecDecide.v
theories/StampFacts.v
theories/KeymapDecide.v
theories/DecideFacts.v
theories/PropertiesDecide.v
theories/CFirmware.v
theories/SpecCFirmware.v
theories/CFirmwareFacts.v
theories/PropertiesCFirmware.v
theories/CSplit.v
theories/SpecCSplit.v
theories/CSplitFacts.v
theories/CSplitRxFacts.v
theories/PropertiesCSplit.v
theories/CReport.v
theories/SpecCReport.v
theories/CReportFacts.v
theories/CReportLive.v
theories/PropertiesCReport.v
theories/CBle.v
theories/SpecCBle.v
theories/CBleFacts.v
theories/PropertiesCBle.v
theories/SpecBoard.v
theories/BoardFacts.v
theories/PropertiesBoard.v
theories/Ncl.v
theories/NclCodegen.v
theories/SpecNcl.v
theories/NclFacts.v
theories/NclMacroFacts.v
theories/NclJsonFacts.v
theories/NclTableFacts.v
theories/NclGenFacts.v
theories/NclLayoutFacts.v
theories/SpecNclBoard.v
theories/NclBoardFacts.v
theories/PropertiesNcl.v
theories/CCalls.v
theories/SpecCCalls.v
theories/CCallsFacts.v
theories/PropertiesCCalls.v
theories/CKeyboard.v
theories/SpecCKeyboard.v
theories/CKeyboardFacts.v
theories/PropertiesCKeyboard.v
theories/PropertiesNclKeyboard.v
theories/SpecTapBoard.v
theories/TapBoardFacts.v
theories/TapBoardTotal.v
theories/TapBoardLive.v
theories/PropertiesTapBoard.v
theories/SpecNclTap.v
theories/NclTapFacts.v
theories/PropertiesNclTap.v
theories/SpecTyping.v
theories/TypingFacts.v
theories/PropertiesTyping.v
theories/SpecChordBoard.v
theories/ChordBoardFacts.v
theories/ChordBoardLive.v
theories/PropertiesChordBoard.v
theories/SpecNclChord.v
theories/NclChordFacts.v
theories/PropertiesNclChord.v
theories/SpecNclTyping.v
theories/NclTypingFacts.v
theories/PropertiesNclTyping.v
theories/CUsb.v
theories/SpecUsb.v
theories/UsbFacts.v
theories/PropertiesUsb.v
theories/CBleMap.v
theories/SpecHid.v
theories/HidFacts.v
theories/PropertiesHid.v
theories/SpecDanceBoard.v
theories/DanceBoardFacts.v
theories/DanceBoardLive.v
theories/PropertiesDanceBoard.v
theories/SpecMacroBoard.v
theories/MacroBoardFacts.v
theories/MacroBoardLive.v
theories/PropertiesMacroBoard.v
theories/StringMacro.v
theories/SpecText.v
theories/StringFacts.v
theories/PropertiesText.v
theories/NclRemap.v
theories/SpecRemap.v
theories/RemapFacts.v
theories/PropertiesRemap.v
theories/SpecNclKeys.v
theories/NclKeyFacts.v
theories/NclString.v
theories/NclMacroKeyFacts.v
theories/PropertiesNclMacro.v
theories/NclDanceFacts.v
theories/SpecTapping.v
theories/TappingFacts.v
theories/PropertiesNclDance.v
theories/SpecHost.v
theories/HostFacts.v
theories/PropertiesHost.v
theories/PropertiesHostBoards.v
theories/SpecDanceRoom.v
theories/DanceBoardTotal.v
theories/PropertiesDanceRoom.v
theories/SpecBleHost.v
theories/BleHostFacts.v
theories/PropertiesBleHost.v
theories/PropertiesNclHost.v
theories/BleTidy.v
theories/PropertiesBleBoards.v
theories/PropertiesNclKeysHost.v
