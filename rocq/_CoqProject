-Q theories Verif
theories/Base.v
theories/HeaderModel.v
theories/HeaderSpec.v
theories/HeaderProofs.v
theories/HeaderProps.v
theories/SeqModel.v
theories/SeqSpec.v
theories/SeqProofs.v
theories/SeqProps.v
theories/EnergyModel.v
theories/EnergyFModel.v
theories/EnergyProofs.v
theories/EnergySpec.v
theories/EnergyFProofs.v
theories/EnergyFSpec.v
theories/EnergyProps.v
theories/NanoModel.v
theories/NanoProofs.v
theories/NanoOrder.v
theories/NanoSpec.v
theories/NanoOut.v
theories/NanoRetry.v
theories/NanoTrace.v
theories/NanoLate.v
theories/NanoSend.v
theories/NanoBudget.v
theories/NanoLive.v
theories/NanoDrain.v
theories/NanoProps.v
theories/NanoWrap.v
theories/NanoWrapProps.v
theories/NetModel.v
theories/NetProofs.v
theories/NetWrap.v
theories/NetProps.v
theories/PhyModel.v
theories/PhySpec.v
theories/PhyProofs.v
theories/PhyProps.v
theories/ChannelModel.v
theories/ChannelSpec.v
theories/ChannelProofs.v
theories/ChannelProps.v
theories/DeviceModel.v
theories/DeviceProps.v
theories/AppModel.v
theories/AppProofs.v
theories/AppProps.v
theories/MacroPhyModel.v
theories/MacroPhySpec.v
theories/MacroPhyProofs.v
theories/MacroPhyProps.v
theories/MacroPhyMore.v
theories/MacModel.v
theories/MacSpec.v
theories/MacProofs.v
theories/MacAcct.v
theories/MacSteps.v
theories/MacInv.v
theories/MacResp.v
theories/MacLive.v
theories/MacNav.v
theories/MacUb.v
theories/MacNet.v
theories/MacScript.v
theories/MacScriptNet.v
theories/MacProps.v
theories/ApModel.v
theories/ApSpec.v
theories/ApProofs.v
theories/ApInv.v
theories/ApLive.v
theories/ApMore.v
theories/ApWhite.v
theories/ApSlots.v
theories/ApScript.v
theories/ApProps.v
theories/ClientModel.v
theories/ClientSpec.v
theories/ClientCase.v
theories/ClientAcct.v
theories/ClientInv.v
theories/ClientFifo.v
theories/ClientOrder.v
theories/ClientCount.v
theories/ClientRetry.v
theories/ClientMore.v
theories/ClientNeg.v
theories/ClientBlock.v
theories/ClientScript.v
theories/ClientProps.v
theories/ApGrant.v
theories/ApNet.v
theories/ApNetScript.v
theories/ApProps2.v
theories/WaveModel.v
theories/WaveProofs.v
theories/WaveProps.v
theories/LossModel.v
theories/LossProofs.v
theories/LossProps.v
theories/AntennaModel.v
theories/AntennaProofs.v
theories/AntennaProps.v
theories/StackModel.v
theories/StackProofs.v
theories/StackLive.v
theories/StackProps.v
theories/MStackModel.v
theories/MStackProofs.v
theories/MStackAp.v
theories/MStackMac.v
theories/MStackProps.v
theories/MStackProps2.v
theories/ApProps3.v
theories/WireModel.v
theories/WireProofs.v
theories/WireProps.v
theories/FreqModel.v
theories/FreqProps.v
theories/StatModel.v
theories/StatProofs.v
theories/StatClient.v
theories/StatProps.v
theories/StatMac.v
theories/StatMacProps.v
theories/NanoStat.v
theories/NanoStatProofs.v
theories/NanoStatProps.v
theories/MacExch.v
theories/MStackLive.v
theories/MStackProps3.v
theories/MacRts.v
theories/MStackRts.v
theories/MStackProps4.v
theories/AckTime.v
theories/AckTime3.v
theories/NanoWait.v
theories/ApWait.v
theories/AntennaTurn.v
theories/Fair.v
theories/NanoCts.v
theories/NanoAck.v
