-Q theories Verif
theories/Common.v
theories/Base64Model.v
theories/Base64Spec.v
theories/Base64Proofs.v
theories/Base64Props.v
theories/HdlcModel.v
theories/HdlcSpec.v
theories/HdlcProofs.v
theories/HdlcProps.v
theories/Crc32Model.v
theories/Crc32Spec.v
theories/Crc32Proofs.v
theories/Crc32Props.v
theories/HexModel.v
theories/HexSpec.v
theories/HexProofs.v
theories/HexProps.v
theories/Utf8Model.v
theories/Utf8Spec.v
theories/Utf8Proofs.v
theories/Utf8Props.v
theories/MsgModel.v
theories/MsgSpec.v
theories/MsgProofs.v
theories/MsgProps.v
theories/Dec.v
theories/MapModel.v
theories/MapProofs.v
theories/MapProps.v
theories/IncModel.v
theories/IncSpec.v
theories/IncProofs.v
theories/IncProps.v
theories/IdPoolModel.v
theories/IdPoolSpec.v
theories/IdPoolProofs.v
theories/IdPoolProps.v
theories/TopicModel.v
theories/TopicSpec.v
theories/TopicProofs.v
theories/TopicProps.v
theories/FifoModel.v
theories/FifoSpec.v
theories/FifoProofs.v
theories/FifoProps.v
theories/FixpModel.v
theories/FixpSpec.v
theories/FixpProofs.v
theories/FixpParseProofs.v
theories/FixpTextProofs.v
theories/FixpProps.v
theories/TypeModel.v
theories/TypeSpec.v
theories/TypeProofs.v
theories/TypeProps.v
theories/ArrayModel.v
theories/ArraySpec.v
theories/ArrayProofs.v
theories/ArrayProps.v
theories/MmapModel.v
theories/MmapSpec.v
theories/MmapProofs.v
theories/MmapHeapProofs.v
theories/MmapProps.v
theories/ReadModel.v
theories/ReadSpec.v
theories/ReadProofs.v
theories/ReadProps.v
theories/SlotModel.v
theories/SlotSpec.v
theories/SlotProofs.v
theories/HolderModel.v
theories/HolderSpec.v
theories/HolderProofs.v
theories/SlotProps.v
theories/ChannelModel.v
theories/ChannelSpec.v
theories/ChannelProofs.v
theories/ChannelProps.v
theories/ParseModel.v
theories/ParseSpec.v
theories/ParseProofs.v
theories/ParseProps.v
theories/SettingsModel.v
theories/SettingsSpec.v
theories/SettingsProofs.v
theories/SettingsProps.v
theories/ConfigModel.v
theories/ConfigSpec.v
theories/ConfigProofs.v
theories/ConfigSafe.v
theories/ConfigProps.v
theories/EnvModel.v
theories/EnvSpec.v
theories/EnvProofs.v
theories/EnvProps.v
theories/CondModel.v
theories/CondSpec.v
theories/CondProofs.v
theories/CondEval.v
theories/CondProps.v
theories/DiscernModel.v
theories/DiscernSpec.v
theories/DiscernProofs.v
theories/DiscernParse.v
theories/DiscernRun.v
theories/DiscernRoute.v
theories/DiscernProps.v
theories/WsModel.v
theories/WsSpec.v
theories/WsProofs.v
theories/WsProps.v
theories/UdpsModel.v
theories/UdpsSpec.v
theories/UdpsProofs.v
theories/UdpsInv.v
theories/UdpsStep.v
theories/UdpsMore.v
theories/UdpsHostile.v
theories/UdpsSendProofs.v
theories/UdpsProps.v
theories/AsdModel.v
theories/AsdSpec.v
theories/AsdQueue.v
theories/AsdProofs.v
theories/AsdLoss.v
theories/AsdOnce.v
theories/AsdMore.v
theories/AsdProps.v
theories/HttpUtilModel.v
theories/HttpUtilSpec.v
theories/HttpUtilProofs.v
theories/HttpUriProofs.v
theories/HttpUtilProps.v
theories/Http1Model.v
theories/Http1Spec.v
theories/Http1Proofs.v
theories/Http1HeadProofs.v
theories/Http1RecvProofs.v
theories/Http1FrameProofs.v
theories/Http1MsgProofs.v
theories/Http1ChunkProofs.v
theories/Http1BodyProofs.v
theories/Http1ThmProofs.v
theories/Http1Props.v
theories/MqttModel.v
theories/MqttSpec.v
theories/MqttGoodProofs.v
theories/MqttReadProofs.v
theories/MqttPacketProofs.v
theories/MqttConnProofs.v
theories/MqttSendProofs.v
theories/MqttSafeProofs.v
theories/MqttCheckProofs.v
theories/MqttProps.v
theories/MqttBrokerModel.v
theories/MqttBrokerSpec.v
theories/MqttBrokerProofs.v
theories/MqttBrokerSubProofs.v
theories/MqttBrokerRunProofs.v
theories/MqttBrokerFullProofs.v
theories/MqttBrokerProps.v
theories/MqttQosModel.v
theories/MqttQosSpec.v
theories/MqttQosProofs.v
theories/MqttQosRecvProofs.v
theories/MqttQosPairProofs.v
theories/MqttQosWorldProofs.v
theories/MqttQosSendProofs.v
theories/MqttQosProps.v
theories/SendLoopModel.v
theories/SendLoopSpec.v
theories/SendLoopProofs.v
theories/SendLoopProps.v
theories/ArrayTreeModel.v
theories/ArrayTreeSpec.v
theories/ArrayTreeProofs.v
theories/ArrayDefModel.v
theories/ArrayDefSpec.v
theories/ArrayDefProofs.v
theories/ArrayDefLayout.v
theories/ArrayTreeProps.v
theories/ArrayDefProps.v
theories/MsgdbModel.v
theories/MsgdbSpec.v
theories/MsgdbFsProofs.v
theories/MsgdbProofs.v
theories/MsgdbMapProofs.v
theories/MsgdbIterProofs.v
theories/MsgdbIdxProofs.v
theories/MsgdbProps.v
theories/BrokModel.v
theories/BrokSpec.v
theories/BrokProofs.v
theories/BrokProgress.v
theories/BrokBack.v
theories/BrokProps.v
theories/ShaSpec.v
theories/ShaModel.v
theories/ShaProofs.v
theories/ShaStream.v
theories/ShaCalls.v
theories/ShaWs.v
theories/ShaProps.v
theories/PwdModel.v
theories/PwdSpec.v
theories/PwdCommand.v
theories/PwdProofs.v
theories/PwdHash.v
theories/PwdTool.v
theories/PwdProps.v
theories/AclModel.v
theories/AclSpec.v
theories/AclProofs.v
theories/AclRead.v
theories/AclProps.v
theories/BusTypes.v
theories/BusModel.v
theories/BusSpec.v
theories/BusProofs.v
theories/BusRun.v
theories/BusTrace.v
theories/BusProps.v
theories/ChkTypes.v
theories/ChkModel.v
theories/ChkSpec.v
theories/ChkProofs.v
theories/ChkOrder.v
theories/ChkProps.v
theories/ConvTypes.v
theories/ConvModel.v
theories/ConvSpec.v
theories/ConvProofs.v
theories/ConvSafe.v
theories/ConvProps.v
theories/AvgModel.v
theories/AvgSpec.v
theories/AvgProofs.v
theories/AvgProps.v
theories/StreeModel.v
theories/StreeSpec.v
theories/StreeProofs.v
theories/StreeProps.v
theories/CmdModel.v
theories/CmdSpec.v
theories/CmdProofs.v
theories/CmdProps.v
theories/ExpModel.v
theories/ExpSpec.v
theories/ExpProofs.v
theories/ExpProps.v
