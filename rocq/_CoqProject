-Q theories Verif
theories/SequenceModel.v
theories/SequenceSpec.v
theories/SequenceProofs.v
theories/SequenceHistory.v
theories/SequenceInv.v
theories/PropsSequence.v
theories/OrderSpec.v
theories/OrderProofs.v
theories/OrderRunProofs.v
theories/PropsOrder.v
theories/TimingModel.v
theories/TimingSpec.v
theories/TimingProofs.v
theories/PropsTiming.v
theories/Digits.v
theories/TimeModel.v
theories/TimeSpec.v
theories/TimeProofs.v
theories/TimeFloat.v
theories/PropsTime.v
theories/SizeModel.v
theories/SizeSpec.v
theories/SizeProofs.v
theories/SizeNumProofs.v
theories/SizeTextProofs.v
theories/SizeWriteProofs.v
theories/SizeBackProofs.v
theories/SizeRegionProofs.v
theories/PropsSize.v
theories/RetimeModel.v
theories/RetimeSpec.v
theories/RetimeProofs.v
theories/PropsRetime.v
theories/RingModel.v
theories/RingProofs.v
theories/PropsRing.v
theories/NodeModel.v
theories/NodeSpec.v
theories/NodeProofs.v
theories/PropsNode.v
theories/HandoverProofs.v
theories/PropsHandover.v
theories/ReseqProofs.v
theories/PropsReseq.v
theories/ManifestModel.v
theories/ManifestProofs.v
theories/PropsManifest.v
theories/ConfigModel.v
theories/PropsConfig.v
theories/ClockModel.v
theories/PropsClock.v
theories/AdapterModel.v
theories/PropsAdapter.v
theories/TokenModel.v
theories/PropsToken.v
theories/SocketModel.v
theories/PropsSocket.v
theories/IdModel.v
theories/PropsId.v
theories/StyleModel.v
theories/StyleProofs.v
theories/PropsStyle.v
theories/StyleTree.v
theories/PropsStyleValue.v
theories/PropsFont.v
theories/PropsScope.v
theories/TimelineModel.v
theories/PropsTimeline.v
theories/SegmentModel.v
theories/SegmentSpec.v
theories/SegmentProofs.v
theories/PropsSegment.v
theories/SegmentHeadProofs.v
theories/PropsSegmentHead.v
theories/PropsSegmentMade.v
theories/SpliceModel.v
theories/SpliceSpec.v
theories/SpliceProofs.v
theories/PropsSplice.v
theories/DedupModel.v
theories/DedupSpec.v
theories/DedupProofs.v
theories/PropsDedup.v
theories/ConvertModel.v
theories/ConvertSpec.v
theories/ConvertProofs.v
theories/PropsConvert.v
theories/ConvertStyleSpec.v
theories/ConvertStyleProofs.v
theories/ConvertPassProofs.v
theories/PropsConvertStyle.v
theories/LookSpec.v
theories/LookProofs.v
theories/LookDressProofs.v
theories/PropsLook.v
theories/ResegModel.v
theories/ResegSpec.v
theories/PropsReseg.v
theories/BackendModel.v
theories/BackendSpec.v
theories/PropsBackend.v
theories/PipeModel.v
theories/PipeSpec.v
theories/PipeProofs.v
theories/PipeReadProofs.v
theories/PropsPipe.v
theories/ProducerModel.v
theories/ProducerSpec.v
theories/ProducerProofs.v
theories/PropsProducer.v
theories/ReadModel.v
theories/ReadSpec.v
theories/PropsRead.v
theories/CompareModel.v
theories/CompareSpec.v
theories/CompareProofs.v
theories/PropsCompare.v
theories/VerboseModel.v
theories/VerboseSpec.v
theories/VerboseProofs.v
theories/PropsVerbose.v
theories/MessageModel.v
theories/MessageSpec.v
theories/MessageProofs.v
theories/PropsMessage.v
theories/WiringModel.v
theories/WiringSpec.v
theories/WiringProofs.v
theories/PropsWiring.v
theories/PrintModel.v
theories/PrintSpec.v
theories/PrintProofs.v
theories/PrintShowProofs.v
theories/PrintDocProofs.v
theories/PropsPrint.v
theories/AttrModel.v
theories/AttrSpec.v
theories/AttrProofs.v
theories/PropsAttr.v
theories/HeadModel.v
theories/HeadSpec.v
theories/HeadProofs.v
theories/HeadFlowProofs.v
theories/PropsHead.v
theories/ClassModel.v
theories/ClassSpec.v
theories/ClassProofs.v
theories/ClassCheckProofs.v
theories/ClassRunProofs.v
theories/PropsClass.v
theories/ValidModel.v
theories/ValidSpec.v
theories/ValidPruneProofs.v
theories/ValidProofs.v
theories/ValidPassProofs.v
theories/ValidVerdictProofs.v
theories/ValidStyleProofs.v
theories/PropsValid.v
theories/ProxyModel.v
theories/ProxySpec.v
theories/ProxyProofs.v
theories/PropsProxy.v
theories/ScheduleModel.v
theories/ScheduleSpec.v
theories/ScheduleProofs.v
theories/PropsSchedule.v
theories/StartModel.v
theories/StartSpec.v
theories/StartProofs.v
theories/PropsStart.v
theories/FindModel.v
theories/FindSpec.v
theories/FindProofs.v
theories/PropsFind.v
theories/AppModel.v
theories/AppSpec.v
theories/AppProofs.v
theories/PropsApp.v
theories/IdentModel.v
theories/IdentSpec.v
theories/IdentProofs.v
theories/PropsIdent.v
theories/PageModel.v
theories/PageSpec.v
theories/PageProofs.v
theories/PropsPage.v
theories/TimerModel.v
theories/TimerSpec.v
theories/PropsTimer.v
theories/RequestModel.v
theories/RequestSpec.v
theories/PropsRequest.v
theories/IntervalModel.v
theories/IntervalSpec.v
theories/PropsInterval.v
theories/AddressModel.v
theories/PropsAddress.v
