-Q theories Verif
theories/Base.v
theories/Arena.v
theories/Links.v
theories/Matching.v
theories/Stats.v
theories/Chawathe.v
theories/Dom.v
theories/Browser.v
theories/HtmlDiff.v
theories/AttrProofs.v
theories/EscProofs.v
theories/ArenaProofs.v
theories/MatchProofs.v
theories/TreeProofs.v
theories/DtreeProofs.v
theories/ScriptProofs.v
theories/ArenaOps.v
theories/DomTree.v
theories/BuildProofs.v
theories/ApplyProofs.v
theories/Instances.v
theories/InstanceProofs.v
theories/HashProofs.v
theories/PropAttrs.v
theories/PropMatch.v
theories/PropApply.v
theories/FrameProofs.v
theories/PropFrame.v
theories/Server.v
theories/ServerProofs.v
theories/PropServer.v
theories/Sink.v
theories/Page.v
theories/SinkProofs.v
theories/PropSink.v
theories/ShadowProofs.v
theories/SimProofs.v
theories/Applier.v
theories/BrowserProofs.v
theories/CutProofs.v
theories/BrowserFrame.v
theories/ConvProofs.v
theories/RoundProofs.v
theories/AssembleProofs.v
theories/NestProofs.v
theories/PropRoundtrip.v
theories/TotalProofs.v
theories/ConvTotal.v
theories/DiffTotal.v
theories/PropTotal.v
theories/SlotProofs.v
theories/PropSlots.v
theories/WfCheck.v
theories/BridgeProofs.v
theories/PropBridge.v
theories/SerProofs.v
theories/PropSer.v
theories/OpaqueProofs.v
theories/PropOpaque.v
theories/PropBrowser.v
theories/PropClient.v
theories/SelfProofs.v
theories/PropSelf.v
theories/RestyleProofs.v
theories/EmptyProofs.v
theories/PropRestyle.v
theories/PropEmpty.v
theories/ParseProofs.v
theories/PropParse.v
theories/PropGrammar.v
theories/BrowserTotal.v
theories/PropBrowserTotal.v
theories/DomApi.v
theories/LinkProofs.v
theories/PropLinks.v
theories/ApiProofs.v
theories/PropApi.v
theories/KeepProofs.v
theories/PropKeep.v
theories/Wire.v
theories/WireProofs.v
theories/PropWire.v
theories/LiveClient.v
theories/MountProofs.v
theories/PayloadProofs.v
theories/NumberProofs.v
theories/PropPayload.v
theories/PropMount.v
theories/Loader.v
theories/PropLoader.v
theories/PropEvents.v
theories/CinTree.v
theories/CinProofs.v
theories/PropTree.v
theories/CountProofs.v
theories/PropCount.v
theories/HashModel.v
theories/PropHash.v
theories/PropPages.v
theories/InPlaceSpec.v
theories/InPlaceMatch.v
theories/InPlaceProofs.v
theories/PropInPlace.v
theories/Stem.v
theories/PropStem.v
theories/ReasonProofs.v
theories/PropReason.v
theories/MirrorProofs.v
theories/PropMirror.v
theories/GrowMatch.v
theories/GrowSpec.v
theories/GrowProofs.v
theories/GrowScript.v
theories/PropGrow.v
theories/BoundProofs.v
theories/PropBound.v
theories/SizeProofs.v
theories/PropSize.v
theories/FloatModel.v
theories/FloatProofs.v
theories/PropFloat.v
theories/PropFallback.v
theories/WasmApi.v
theories/PropWasm.v
theories/PropPatch.v
theories/PropBrowserPatch.v
theories/IsoProofs.v
theories/PropAlike.v
theories/RenameProofs.v
theories/PropDiffPages.v
theories/PropStats.v
theories/OwnTests.v
theories/Fuzz.v
theories/PropFuzz.v
theories/Parity.v
theories/StepProofs.v
theories/PropParity.v
theories/SuitProofs.v
theories/PropLockstep.v
theories/BodyProofs.v
theories/PropWhole.v
theories/Inputs.v
theories/PropInputs.v
theories/PropMemory.v
theories/Chaos.v
theories/PropChaos.v
theories/Names.v
theories/PropNames.v
theories/PropTrace.v
theories/PropChars.v
