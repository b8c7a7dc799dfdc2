-Q theories Verif
theories/KeyModel.v
theories/HeaderModel.v
theories/KeySpec.v
theories/HeaderSpec.v
theories/KeyProof.v
theories/HeaderProof.v
theories/KeyHeaderThm.v
theories/MinKeyModel.v
theories/MinKeySpec.v
theories/MinKeyProof.v
theories/MinKeyThm.v
theories/SchemaModel.v
theories/MacroModel.v
theories/SchemaSpec.v
theories/SchemaProof.v
theories/MacroProof.v
theories/SchemaThm.v
theories/PostcardModel.v
theories/PostcardProof.v
theories/DispatchModel.v
theories/DispatchSpec.v
theories/DispatchProof.v
theories/DispatchThm.v
theories/ServerModel.v
theories/ServerSpec.v
theories/ServerProof.v
theories/ServerThm.v
theories/UsbModel.v
theories/UsbSpec.v
theories/UsbProof.v
theories/UsbThm.v
theories/NusbRxModel.v
theories/NusbRxThm.v
theories/CobsModel.v
theories/AccModel.v
theories/CobsProof.v
theories/AccProof.v
theories/AccThm.v
theories/LogModel.v
theories/LogThm.v
theories/ChanModel.v
theories/ChanThm.v
theories/SubModel.v
theories/SubSpec.v
theories/SubProof.v
theories/SubThm.v
theories/SubThm2.v
theories/SubThm3.v
theories/ClientModel.v
theories/ClientSpec.v
theories/ClientProof.v
theories/ClientHist.v
theories/ClientMore.v
theories/ClientThm.v
theories/ClientThm2.v
theories/ClientOut.v
theories/ClientThm3.v
theories/ClientThm4.v
theories/SystemModel.v
theories/SystemSpec.v
theories/FlowBase.v
theories/SystemProof.v
theories/SystemThm.v
theories/SystemThm2.v
theories/ReportModel.v
theories/ReportSpec.v
theories/ReportProof.v
theories/ReportThm.v
theories/ReportThm2.v
theories/WebUsbModel.v
theories/WebUsbThm.v
theories/CodecModel.v
theories/CodecSpec.v
theories/CodecProof.v
theories/CodecStdModel.v
theories/CodecStdProof.v
theories/CodecThm.v
theories/TypedSpec.v
theories/TypedThm.v
theories/TypedThm2.v
theories/FlowSpec.v
theories/SubFlow.v
theories/FlowProof.v
theories/FlowThm.v
theories/FlowThm2.v
theories/FlowPub.v
theories/FlowTyped.v
theories/LiveSpec.v
theories/LiveProof.v
theories/LiveThm.v
theories/LiveThm2.v
theories/UsbSysModel.v
theories/UsbLink.v
theories/UsbSysSpec.v
theories/UsbSysProof.v
theories/UsbSysLive.v
theories/UsbSysThm.v
theories/UsbSysThm2.v
theories/AsyncModel.v
theories/AsyncSpec.v
theories/AsyncProof.v
theories/AsyncThm.v
theories/AsyncThm2.v
theories/SessionModel.v
theories/SessionSpec.v
theories/SessionProof.v
theories/SessionThm.v
theories/SessionThm2.v
theories/MissSpec.v
theories/MissProof.v
theories/MissThm.v
theories/MissThm2.v
theories/DiscoverSpec.v
theories/DiscoverProof.v
theories/DiscoverThm.v
theories/DiscoverThm2.v
theories/ThreadsSpec.v
theories/ThreadsProof.v
theories/ThreadsThm.v
theories/ThreadsThm2.v
theories/ChanSysModel.v
theories/ChanSysSpec.v
theories/ChanSysProof.v
theories/ChanSysLive.v
theories/ChanSysThm.v
theories/ChanSysThm2.v
theories/ServedSpec.v
theories/ServedProof.v
theories/ServedThm.v
theories/ServedThm2.v
theories/HandleModel.v
theories/HandleSpec.v
theories/HandleProof.v
theories/HandleCalls.v
theories/HandleChan.v
theories/HandleServe.v
theories/HandleThm.v
theories/HandleThm2.v
theories/ConnectModel.v
theories/ConnectSpec.v
theories/ConnectThm.v
theories/ConnectThm2.v
theories/FakeModel.v
theories/FakeSpec.v
theories/FakeProof.v
theories/FakeLive.v
theories/FakeThm.v
theories/FakeThm2.v
theories/AccExact.v
theories/DispatchExact.v
theories/UsbExact.v
theories/SubExact.v
theories/SubExact2.v
theories/WorkbookModel.v
theories/WorkbookSpec.v
theories/WorkbookThm.v
theories/WorkbookThm2.v
theories/ClientThm5.v
theories/OmitThm.v
theories/OmitThm2.v
theories/UsbMissThm.v
theories/UsbMissThm2.v
theories/SoleProof.v
theories/LogSysModel.v
theories/LogSysSpec.v
theories/LogSysThm.v
theories/LogSysThm2.v
theories/VarintThm.v
theories/TestsEx.v
theories/WebSysModel.v
theories/WebSysSpec.v
theories/WebSysProof.v
theories/WebSysLive.v
theories/WebSysThm.v
theories/WebSysThm2.v
theories/StateSpec.v
theories/StateProof.v
theories/StateThm.v
theories/StateThm2.v
theories/StateTyped.v
theories/WbSysModel.v
theories/WbSysSpec.v
theories/WbSysProof.v
theories/WbSysThm.v
theories/WbSysThm2.v
theories/CauseSpec.v
theories/CauseProof.v
theories/CauseThm.v
theories/CauseThm2.v
theories/AccSysSpec.v
theories/AccSysProof.v
theories/AccSysThm.v
theories/AccSysThm2.v
theories/UsbStallThm.v
theories/TimeModel.v
theories/TimeThm.v
theories/RestartThm.v
theories/StripModel.v
theories/StripSpec.v
theories/StripProof.v
theories/StripThm.v
theories/RestartThm2.v
theories/RestartSys.v
theories/RestartThm3.v
theories/ReplModel.v
theories/ReplSpec.v
theories/ReplProof.v
theories/ReplThm.v
theories/ReplSysModel.v
theories/ReplSysThm.v
theories/TurnModel.v
theories/TurnSpec.v
theories/TurnProof.v
theories/TurnThm.v
theories/PingModel.v
theories/PingSpec.v
theories/PingThm.v
theories/PingThm2.v
