-Q theories Verif
theories/Base.v
theories/Bytes.v
theories/Utf8.v
theories/Proto.v
theories/Binary.v
theories/Compact.v
theories/BytesFacts.v
theories/Utf8Facts.v
theories/Spec.v
theories/SpecBinary.v
theories/SpecCompact.v
theories/Laws.v
theories/RoundTrip.v
theories/BinaryLaws.v
theories/CompactFacts.v
theories/CompactLaws.v
theories/WireFacts.v
theories/StructFacts.v
theories/InstFacts.v
theories/CodecFacts.v
theories/Closure.v
theories/FrameFacts.v
theories/TermFacts.v
theories/SafetyFacts.v
theories/PostFacts.v
theories/DeepFacts.v
theories/SafeInst.v
theories/DelimFacts.v
theories/Examples.v
theories/PropsStruct.v
theories/PropsCodec.v
theories/PropsSafety.v
theories/JsonText.v
theories/JsonTextFacts.v
theories/Json.v
theories/JsonLaws.v
theories/SpecJson.v
theories/JsonFacts.v
theories/JsonStr.v
theories/JsonSafe.v
theories/PropsJson.v
theories/Dynamic.v
theories/SpecDynamic.v
theories/DynamicFacts.v
theories/DynamicInst.v
theories/DynamicRead.v
theories/DynamicDefects.v
theories/PropsDynamic.v
theories/Transport.v
theories/TransportFacts.v
theories/SaslFacts.v
theories/PropsTransport.v
theories/Rpc.v
theories/MsgLaws.v
theories/JsonMsg.v
theories/RpcFacts.v
theories/RpcSys.v
theories/PropsRpc.v
theories/Nonblocking.v
theories/NonblockFacts.v
theories/NonblockRuns.v
theories/PropsNonblock.v
theories/Recursive.v
theories/RecursiveFacts.v
theories/PropsRecursive.v
theories/Frozen.v
theories/PropsFrozen.v
theories/Tornado.v
theories/TornadoFacts.v
theories/PropsTornado.v
theories/Servers.v
theories/PropsServers.v
theories/HttpServer.v
theories/HttpFacts.v
theories/PropsHttp.v
theories/Twisted.v
theories/TwistedFacts.v
theories/PropsTwisted.v
theories/Header.v
theories/SpecHeader.v
theories/HeaderFacts.v
theories/HeaderRead.v
theories/PropsHeader.v
theories/Zlib.v
theories/ZlibFacts.v
theories/PropsZlib.v
theories/Ext.v
theories/ExtFacts.v
theories/PropsExt.v
theories/SpecExt.v
theories/ExtRead.v
theories/ExtReadGen.v
theories/ExtReadBinary.v
theories/ExtReadCompact.v
theories/ExtReadFacts.v
theories/ExtReadSafe.v
theories/ExtReadSafeInst.v
theories/ExtReadDepth.v
theories/PropsExtRead.v
theories/BoolFacts.v
theories/PropsBool.v
theories/SpecJsonDoc.v
theories/SimpleJson.v
theories/JsonDocFacts.v
theories/SimpleJsonFacts.v
theories/JsonScan.v
theories/JsonDocNames.v
theories/PropsJsonDoc.v
theories/HttpClient.v
theories/HttpClientFacts.v
theories/HttpRpcFacts.v
theories/PropsHttpClient.v
theories/HeaderProtocol.v
theories/HeaderProtoFacts.v
theories/PropsHeaderProto.v
theories/CompactOrder.v
theories/CompactOrderFacts.v
theories/PropsCompactOrder.v
theories/Tls.v
theories/TlsFacts.v
theories/PropsTls.v
theories/TornadoRpc.v
theories/TornadoRpcFacts.v
theories/PropsTornadoRpc.v
theories/RelayFacts.v
theories/RelayInst.v
theories/PropsRelay.v
theories/TwistedServer.v
theories/TwistedServerFacts.v
theories/PropsTwistedServer.v
theories/RpcVersions.v
theories/RpcVersionsFacts.v
theories/PropsRpcVersions.v
theories/ExtTransport.v
theories/ExtTransportFacts.v
theories/PropsExtTransport.v
theories/GenClass.v
theories/SpecClass.v
theories/GenClassFacts.v
theories/GenClassRead.v
theories/GenClassWrite.v
theories/GenClassDec.v
theories/GenClassInst.v
theories/GenClassNames.v
theories/PropsGenClass.v
theories/GenClassEnum.v
theories/PropsEnumClass.v
theories/GenClassImm.v
theories/PropsImmutable.v
theories/DblNearest.v
theories/PropsMore.v
theories/PropsRpcJson.v
theories/Const.v
theories/ConstText.v
theories/SpecConst.v
theories/ConstFacts.v
theories/PropsConst.v
theories/Defaults.v
theories/DefaultsFacts.v
theories/PropsDefaults.v
theories/Service.v
theories/SpecService.v
theories/ServiceFacts.v
theories/PropsService.v
theories/Listen.v
theories/PropsListen.v
theories/Modules.v
theories/ModulesFacts.v
theories/PropsModules.v
theories/Into.v
theories/IntoFacts.v
theories/IntoRead.v
theories/PropsInto.v
theories/IntoFast.v
theories/IntoFastFacts.v
theories/RpcFast.v
theories/RpcFastFacts.v
theories/RpcFastLost.v
theories/PropsRpcFast.v
theories/NbThreads.v
theories/NbThreadsFacts.v
theories/NbThreadsLive.v
theories/PropsNbThreads.v
theories/Ids.v
theories/IdsFacts.v
theories/IdsWire.v
theories/PropsIds.v
theories/Timeout.v
theories/PropsTimeout.v
