-Q theories Verif
theories/Base.v
theories/BaseProofs.v
theories/Utf8.v
theories/Utf8Spec.v
theories/Utf8Proofs.v
theories/Wcwidth.v
theories/WcwidthProofs.v
theories/PropsUtf8.v
theories/Symbol.v
theories/SymbolProofs.v
theories/SymbolMake.v
theories/PropsSymbol.v
theories/Screen.v
theories/ScreenInv.v
theories/ScreenSb.v
theories/ScreenScroll.v
theories/ScreenSpec.v
theories/ScreenOps.v
theories/ScreenMove.v
theories/ScreenCtl.v
theories/ScreenResize.v
theories/ScreenSafe.v
theories/ScreenLaws.v
theories/ScreenAlt.v
theories/ScreenHist.v
theories/ScreenRz.v
theories/ScreenThms.v
theories/PropsScreen.v
theories/Ring.v
theories/Array.v
theories/SharedSpec.v
theories/RingProofs.v
theories/ArrayProofs.v
theories/PropsShared.v
theories/VteData.v
theories/Vte.v
theories/VteKeys.v
theories/VteSpec.v
theories/VteInv.v
theories/VteSafe.v
theories/VteFrame.v
theories/VteView.v
theories/VteParse.v
theories/VteCsi.v
theories/VteFx.v
theories/VteText.v
theories/VteStr.v
theories/VteEsc.v
theories/VteReply.v
theories/VteReset.v
theories/VteSave.v
theories/VteDevSpec.v
theories/VteDev.v
theories/VteDemo.v
theories/VteThms.v
theories/VteThms2.v
theories/VteThms3.v
theories/PropsVte.v
theories/PropsVte2.v
theories/PropsDev.v
theories/Render.v
theories/RenderSpec.v
theories/RenderProofs.v
theories/RenderAge.v
theories/RenderThms.v
theories/PropsRender.v
theories/Selection.v
theories/SelectionSpec.v
theories/SelectionProofs.v
theories/SelectionFollow.v
theories/SelectionThms.v
theories/PropsSelection.v
theories/Htable.v
theories/HtableSpec.v
theories/HtableProofs.v
theories/PropsHtable.v
theories/Paper.v
theories/PaperProofs.v
theories/PropsPaper.v
theories/FrameSpec.v
theories/ScreenFrame.v
theories/PropsFrame.v
theories/EditSpec.v
theories/VteEdit.v
theories/PropsVte3.v
theories/Document.v
theories/DocProofs.v
theories/PropsDoc.v
theories/TwinSpec.v
theories/TwinVteSpec.v
theories/TwinProofs.v
theories/TwinStep.v
theories/TwinVte.v
theories/TwinThms.v
theories/PropsTwin.v
theories/Alloc.v
theories/AllocSpec.v
theories/AllocProofs.v
theories/AllocCalls.v
theories/AllocResize.v
theories/AllocThms.v
theories/PropsAlloc.v
theories/Symmem.v
theories/SymmemSpec.v
theories/SymmemProofs.v
theories/SymmemExact.v
theories/SymmemThms.v
theories/PropsSymmem.v
theories/Own.v
theories/OwnSpec.v
theories/OwnProofs.v
theories/OwnRows.v
theories/OwnThms.v
theories/OwnCalls.v
theories/OwnCallThms.v
theories/OwnDemo.v
theories/PropsOwn.v
theories/ReplyText.v
theories/OwnView.v
theories/OwnViewCalls.v
theories/OwnViewUp.v
theories/OwnViewRest.v
theories/OwnViewAll.v
theories/OwnViewSpec.v
theories/OwnViewThms.v
theories/SeenSpec.v
theories/SeenProofs.v
theories/SeenThms.v
theories/PropsSeen.v
theories/CopySpec.v
theories/CopyHidden.v
theories/CopyProofs.v
theories/CopyText.v
theories/PropsCopy.v
theories/Life.v
theories/LifeSpec.v
theories/LifeProofs.v
theories/LifeScr.v
theories/LifeCalls.v
theories/LifeThms.v
theories/LifeInv.v
theories/LifeSound.v
theories/LifeDemo.v
theories/PropsLife.v
theories/Bridge.v
theories/BridgeSpec.v
theories/BridgeProofs.v
theories/BridgeThms.v
theories/BridgeDemo.v
theories/BridgeClose.v
theories/BridgeResult.v
theories/PropsBridge.v
theories/DriveSpec.v
theories/DriveProofs.v
theories/DriveThms.v
theories/PropsDrive.v
theories/Spawn.v
theories/SpawnSpec.v
theories/SpawnProofs.v
theories/SpawnThms.v
theories/SpawnDemo.v
theories/PropsSpawn.v
theories/Watch.v
theories/WatchSpec.v
theories/WatchProofs.v
theories/WatchDemo.v
theories/WatchKept.v
theories/PropsWatch.v
theories/Pixel.v
theories/PixelSpec.v
theories/PixelProofs.v
theories/PixelCell.v
theories/PixelFrameSpec.v
theories/PixelFrame.v
theories/PixelDemo.v
theories/PropsPixel.v
theories/Gadget.v
theories/GadgetSpec.v
theories/GadgetProofs.v
theories/GadgetDemo.v
theories/PropsGadget.v
theories/PixelDebugSpec.v
theories/PixelDebug.v
theories/VteGrow.v
theories/GadgetTwinSpec.v
theories/GadgetTwin.v
theories/GadgetMore.v
theories/PropsGadgetTwin.v
theories/Macro.v
theories/MacroSpec.v
theories/MacroProofs.v
theories/PropsMacro.v
theories/FlushSpec.v
theories/FlushProofs.v
theories/PropsFlush.v
