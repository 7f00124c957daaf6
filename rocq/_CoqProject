-Q theories Verif
theories/Base.v
theories/Utf8Model.v
theories/Utf8Spec.v
theories/Utf8Proofs.v
theories/Base64Model.v
theories/Base64Spec.v
theories/Base64Proofs.v
theories/MaskModel.v
theories/MaskSpec.v
theories/MaskProofs.v
theories/EndianModel.v
theories/EndianSpec.v
theories/EndianProofs.v
theories/MemmemModel.v
theories/MemmemSpec.v
theories/MemmemProofs.v
theories/RandomModel.v
theories/RandomSpec.v
theories/RandomProofs.v
theories/Sha1Model.v
theories/Sha1Spec.v
theories/Sha1Proofs.v
theories/CodecProps.v
theories/WriteBufferModel.v
theories/WriteBufferSpec.v
theories/WriteBufferProofs.v
theories/ChainProps.v
theories/BufReadModel.v
theories/BufReadSpec.v
theories/BufReadProofs.v
theories/BufReadProps.v
theories/BufWriteModel.v
theories/BufWriteSpec.v
theories/BufWriteProofs.v
theories/BufWriteProps.v
theories/WsModel.v
theories/WsRecvSpec.v
theories/WsSendProofs.v
theories/WsFrame.v
theories/WsTrace.v
theories/WsDecode.v
theories/WsHistory.v
theories/WsRecvProofs.v
theories/WsRecvReach.v
theories/WsVerdict.v
theories/WsFrameSpec.v
theories/WsCodec.v
theories/WsHeaderSpec.v
theories/WsSend.v
theories/WsExec.v
theories/WsClean.v
theories/WsRecvProps.v
theories/WsRecvProps2.v
theories/WsQueue.v
theories/WsOutSpec.v
theories/WsArrive.v
theories/WsWire.v
theories/WsOut.v
theories/WsOutStep.v
theories/WsOutReach.v
theories/WsOutProps.v
theories/WsRefuse.v
theories/WsFrames.v
theories/WsFrameProps.v
theories/WsClose.v
theories/WsCloseProps.v
theories/WsLive.v
theories/WsLive2.v
theories/WsAnswer.v
theories/WsResult.v
theories/WsCloseErr.v
theories/WsCloseErrProps.v
theories/TimerModel.v
theories/TimerSpec.v
theories/TimerProofs.v
theories/TimerProps.v
theories/EpollModel.v
theories/EpollSpec.v
theories/EpollProofs.v
theories/EpollProps.v
theories/SocketModel.v
theories/SocketSpec.v
theories/SocketProofs.v
theories/SocketProps.v
theories/SocketProps2.v
theories/AcceptModel.v
theories/AcceptSpec.v
theories/AcceptProps.v
theories/AddressModel.v
theories/AddressProps.v
theories/UartModel.v
theories/UartProps.v
theories/RouteModel.v
theories/RouteSpec.v
theories/RouteProps.v
theories/Text.v
theories/HandshakeModel.v
theories/HandshakeSpec.v
theories/HandshakeProofs.v
theories/HandshakeProps.v
theories/HttpModel.v
theories/HttpSpec.v
theories/HttpProofs.v
theories/HttpDec.v
theories/HttpSafe.v
theories/HttpSafe2.v
theories/HttpKeep.v
theories/HttpPipe.v
theories/HttpProps.v
theories/HttpProps2.v
theories/HttpGuard.v
theories/HttpProps3.v
theories/ResModel.v
theories/ResSpec.v
theories/ResProofs.v
theories/ResProofs2.v
theories/ResProps.v
theories/ResThms.v
theories/EnumModel.v
theories/EnumProps.v
theories/ZephyrTimer.v
theories/ZephyrTimerSpec.v
theories/ZephyrTimerProofs.v
theories/ZephyrTimerProps.v
theories/ZephyrSocket.v
theories/ZephyrSocketSpec.v
theories/ZephyrSocketProps.v
theories/ZephyrServer.v
theories/ZephyrServerSpec.v
theories/ZephyrServerProps.v
theories/WinSocket.v
theories/WinSocketSpec.v
theories/WinSocketProps.v
theories/WinTimer.v
theories/WinTimerSpec.v
theories/WinTimerProps.v
theories/WinServer.v
theories/WinServerSpec.v
theories/WinServerProps.v
theories/WinUartConf.v
theories/WinUartConfSpec.v
theories/WinUartConfProps.v
theories/WinUart.v
theories/WinUartSpec.v
theories/WinUartProps.v
theories/WinUartEnum.v
theories/WinUartEnumSpec.v
theories/WinUartEnumProps.v
theories/WsPairSpec.v
theories/WsPairProofs.v
theories/WsPairProps.v
theories/EndianPlat.v
theories/Entropy.v
theories/EntropySpec.v
theories/EntropyProps.v
theories/WinSetup.v
theories/WinSetupSpec.v
theories/WinSetupProps.v
theories/WsStream.v
theories/WsStreamProofs.v
theories/WsStreamProps.v
theories/WsOutStream.v
theories/WsOutStreamProofs.v
theories/WsOutStreamProps.v
theories/HttpWire.v
theories/HttpWireProps.v
theories/WinLoop.v
theories/WinLoopProps.v
theories/ZephyrLoop.v
theories/ZephyrLoopProps.v
theories/EpollStopProps.v
theories/HttpStart.v
theories/HttpStartProps.v
theories/UrlModel.v
theories/UrlProps.v
