-Q theories Verif
theories/Base.v
theories/BaseLemmas.v
theories/FramesModel.v
theories/FramesSpec.v
theories/FramesProofs.v
theories/FragmentProofs.v
theories/FramesPropsLemmas.v
theories/FramesProps.v
theories/StreamIdModel.v
theories/StreamIdSpec.v
theories/StreamIdProofs.v
theories/StreamIdProps.v
theories/UnboundedModel.v
theories/UnboundedSpec.v
theories/UnboundedProofs.v
theories/UnboundedProps.v
theories/LookupModel.v
theories/LookupSpec.v
theories/LookupProofs.v
theories/LookupProps.v
theories/OperationsModel.v
theories/OperationsSpec.v
theories/OperationsProofs.v
theories/PortModel.v
theories/PortSpec.v
theories/PortProofs.v
theories/OperationsProps.v
theories/MsgpackModel.v
theories/MsgpackSpec.v
theories/MsgpackClient.v
theories/MsgpackIOProofs.v
theories/MsgpackProofs.v
theories/MsgpackReadProofs.v
theories/MsgpackSizeProofs.v
theories/MsgpackTreeProofs.v
theories/MsgpackHostileProofs.v
theories/TransformModel.v
theories/TransformSpec.v
theories/TransformProofs.v
theories/MsgpackPropsProofs.v
theories/MsgpackProps.v
theories/TransformProps.v
theories/MonoModel.v
theories/MonoSpec.v
theories/MonoProofs.v
theories/MonoProps.v
theories/FluxModel.v
theories/FluxSpec.v
theories/FluxProofs.v
theories/FluxProps.v
theories/SliceModel.v
theories/SliceSpec.v
theories/SliceProofs.v
theories/SliceProps.v
theories/FlowModel.v
theories/FlowSpec.v
theories/FlowProofs.v
theories/FlowProps.v
theories/InvokeModel.v
theories/InvokeSpec.v
theories/InvokeProofs.v
theories/InvokeProps.v
theories/UuidModel.v
theories/UuidSpec.v
theories/UuidProofs.v
theories/UuidRandProofs.v
theories/UuidProps.v
theories/MeshModel.v
theories/MeshSpec.v
theories/MeshProofs.v
theories/MeshProps.v
theories/CustomModel.v
theories/CustomSpec.v
theories/CustomProofs.v
theories/CustomProps.v
theories/BatchModel.v
theories/BatchSpec.v
theories/BatchProofs.v
theories/BatchProps.v
theories/TcpModel.v
theories/TcpSpec.v
theories/TcpProofs.v
theories/TcpScan.v
theories/TcpReads.v
theories/TcpWrites.v
theories/TcpEnd.v
theories/TcpAlias.v
theories/TcpProps.v
theories/DispatchModel.v
theories/DispatchSpec.v
theories/DispatchProofs.v
theories/DispatchProps.v
theories/ProxyModel.v
theories/ProxySpec.v
theories/ProxyProofs.v
theories/ProxyTotal.v
theories/ProxyProps.v
theories/ResponderModel.v
theories/ResponderSpec.v
theories/ResponderProofs.v
theories/ResponderSlice.v
theories/ResponderExec.v
theories/ResponderProps.v
theories/CallModel.v
theories/CallSpec.v
theories/CallInv.v
theories/CallProofs.v
theories/CallProps.v
theories/MsgpackReadSpec.v
theories/MsgpackAcceptProofs.v
theories/MsgpackAcceptProps.v
theories/ConvertModel.v
theories/ConvertSpec.v
theories/ConvertProofs.v
theories/ConvertProps.v
theories/ResponderSerial.v
theories/StreamModel.v
theories/StreamSpec.v
theories/StreamSides.v
theories/StreamWire.v
theories/StreamInv.v
theories/StreamProofs.v
theories/StreamProps.v
theories/OutcomeModel.v
theories/OutcomeSpec.v
theories/OutcomeProofs.v
theories/OutcomeProps.v
theories/ChannelModel.v
theories/ChannelSpec.v
theories/ChannelSides.v
theories/ChannelWire.v
theories/ChannelEnds.v
theories/ChannelLocal.v
theories/ChannelInv.v
theories/ChannelProofs.v
theories/ChannelProps.v
theories/MsgpackTimeSpec.v
theories/MsgpackTimeProofs.v
theories/MsgpackTimeProps.v
theories/FluxDemandSpec.v
theories/FluxDemandProofs.v
theories/FluxDemandProps.v
theories/TcpStall.v
theories/TransportModel.v
theories/TransportSpec.v
theories/TransportProofs.v
theories/TransportProps.v
theories/FnfModel.v
theories/FnfSpec.v
theories/FnfProofs.v
theories/FnfProps.v
theories/StubModel.v
theories/StubSpec.v
theories/StubProofs.v
theories/StubProps.v
theories/ServerModel.v
theories/ServerSpec.v
theories/ServerProofs.v
theories/ServerProps.v
theories/PipeModel.v
theories/PipeSpec.v
theories/PipeProofs.v
theories/PipeProps.v
theories/RecycleModel.v
theories/RecycleSpec.v
theories/RecycleProofs.v
theories/RecycleProps.v
theories/RelayModel.v
theories/RelaySpec.v
theories/RelayProofs.v
theories/RelayProps.v
theories/FluxAskSpec.v
theories/FluxAskProofs.v
theories/FluxAskProps.v
theories/ResponderAskSpec.v
theories/ResponderAskProofs.v
theories/ResponderAskProps.v
theories/BootModel.v
theories/BootSpec.v
theories/BootProofs.v
theories/BootProps.v
theories/NamesModel.v
theories/NamesSpec.v
theories/NamesProofs.v
theories/NamesProps.v
theories/StubStreamModel.v
theories/StubStreamSpec.v
theories/StubStreamProofs.v
theories/StubStreamProps.v
theories/SoloModel.v
theories/SoloSpec.v
theories/SoloProofs.v
theories/SoloProps.v
theories/StubChannelModel.v
theories/StubChannelSpec.v
theories/StubChannelProofs.v
theories/StubChannelProps.v
theories/FlowSinkModel.v
theories/FlowSinkSpec.v
theories/FlowSinkProofs.v
theories/FlowSinkProps.v
theories/RelayStreamModel.v
theories/RelayStreamSpec.v
theories/RelayStreamProofs.v
theories/RelayStreamProps.v
theories/ComponentModel.v
theories/ComponentSpec.v
theories/ComponentProofs.v
theories/ComponentProps.v
theories/FnfRelayModel.v
theories/FnfRelaySpec.v
theories/FnfRelayProofs.v
theories/FnfRelayProps.v
theories/LookupRaceModel.v
theories/LookupRaceSpec.v
theories/LookupRaceProofs.v
theories/LookupRaceProps.v
theories/AliasModel.v
theories/AliasSpec.v
theories/AliasProofs.v
theories/AliasProps.v
theories/CustomerModel.v
theories/CustomerSpec.v
theories/CustomerProofs.v
theories/CustomerProps.v
theories/RustFramesModel.v
theories/RustFramesSpec.v
theories/RustFramesProofs.v
theories/RustFramesProps.v
theories/RustOpsModel.v
theories/RustOpsSpec.v
theories/RustOpsProofs.v
theories/RustOpsProps.v
theories/MixInv.v
theories/RustCallModel.v
theories/RustCallSpec.v
theories/RustCallProofs.v
theories/RustCallProps.v
theories/RustBufferModel.v
theories/RustBufferSpec.v
theories/RustBufferProofs.v
theories/RustBufferProps.v
theories/RustStreamModel.v
theories/RustStreamSpec.v
theories/RustStreamProofs.v
theories/RustStreamProps.v
theories/RustAskModel.v
theories/RustAskSpec.v
theories/RustAskProofs.v
theories/RustAskProps.v
theories/RustSocketModel.v
theories/RustSocketSpec.v
theories/RustSocketProofs.v
theories/RustSocketCalls.v
theories/RustSocketProps.v
theories/RustPairModel.v
theories/RustPairSpec.v
theories/RustPairProofs.v
theories/RustPairStreams.v
theories/RustPairUp.v
theories/RustPairProps.v
theories/GenModel.v
theories/GenSpec.v
theories/GenCheckProofs.v
theories/GenProofs.v
theories/GenProps.v
theories/GenEvolveProofs.v
theories/GenEvolveProps.v
theories/OpGenModel.v
theories/OpGenSpec.v
theories/OpGenProofs.v
theories/OpGenProps.v
theories/RegGenModel.v
theories/RegGenSpec.v
theories/RegGenProofs.v
theories/RegGenProps.v
theories/PkgGenModel.v
theories/PkgGenSpec.v
theories/PkgGenProofs.v
theories/PkgGenProps.v
theories/ScafGenModel.v
theories/ScafGenSpec.v
theories/ScafGenProofs.v
theories/ScafGenProps.v
