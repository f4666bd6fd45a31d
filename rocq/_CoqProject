-Q theories Verif
theories/ArbiterModel.v
theories/ArbiterProofs.v
theories/ArbiterProps.v
theories/ArbiterSpec.v
theories/ArrayModel.v
theories/ArrayProofs.v
theories/ArrayProps.v
theories/ArraySpec.v
theories/AsyncCmdModel.v
theories/AsyncCmdProofs.v
theories/AsyncCmdProps.v
theories/AsyncCmdSpec.v
theories/BackoffModel.v
theories/BackoffProps.v
theories/BackoffSpec.v
theories/Base.v
theories/BaseLemmas.v
theories/CallbackModel.v
theories/CallbackProofs.v
theories/CallbackProps.v
theories/CallbackSpec.v
theories/ChainModel.v
theories/ChainProofs.v
theories/ChainProps.v
theories/ChainSpec.v
theories/CmdLineExact.v
theories/CmdLineLoop.v
theories/CmdLineModel.v
theories/CmdLineMore.v
theories/CmdLineProofs.v
theories/CmdLineProps.v
theories/CmdLineSpec.v
theories/ConfigModel.v
theories/ConfigProofs.v
theories/ConfigProps.v
theories/ConfigSpec.v
theories/ConnModel.v
theories/ConnProofs.v
theories/ConnProps.v
theories/ConnSpec.v
theories/EnumModel.v
theories/EnumProofs.v
theories/EnumProps.v
theories/EnumSpec.v
theories/EnvApi.v
theories/EnvLife.v
theories/EnvModel.v
theories/EnvMore.v
theories/EnvProofs.v
theories/EnvProps.v
theories/EnvSpec.v
theories/EnvValue.v
theories/EnvWf.v
theories/EvalModel.v
theories/EvalProofs.v
theories/EvalProps.v
theories/EvalSpec.v
theories/EventModel.v
theories/EventProofs.v
theories/EventProps.v
theories/EventSpec.v
theories/ExchangeModel.v
theories/ExchangeMore.v
theories/ExchangeProofs.v
theories/ExchangeProps.v
theories/ExchangeSpec.v
theories/ExchangeSys.v
theories/ExportApply.v
theories/ExportBuild.v
theories/ExportFinal.v
theories/ExportLoad.v
theories/ExportModel.v
theories/ExportMore.v
theories/ExportProofs.v
theories/ExportProps.v
theories/ExportRound.v
theories/ExportSpec.v
theories/FieldExportProofs.v
theories/FieldModel.v
theories/FieldProofs.v
theories/FieldProps.v
theories/FieldSpec.v
theories/FifoModel.v
theories/HostModel.v
theories/HostProps.v
theories/HostSpec.v
theories/HttpApi.v
theories/HttpExchModel.v
theories/HttpExchProofs.v
theories/HttpExchProps.v
theories/HttpExchSpec.v
theories/HttpModel.v
theories/HttpProofs.v
theories/HttpProps.v
theories/HttpSpec.v
theories/IfaceAnswer.v
theories/IfaceApi.v
theories/IfaceLogs.v
theories/IfaceModel.v
theories/IfaceProofs.v
theories/IfaceProps.v
theories/IfaceProv.v
theories/IfaceSpec.v
theories/IfaceStd.v
theories/IfaceSys.v
theories/LogCapModel.v
theories/LogCapProofs.v
theories/LogCapProps.v
theories/LogCapSpec.v
theories/MessageModel.v
theories/MessageProofs.v
theories/MessageProps.v
theories/MessageSpec.v
theories/MetricsModel.v
theories/MetricsProps.v
theories/MetricsSpec.v
theories/MgrModel.v
theories/MgrProps.v
theories/MgrSpec.v
theories/MoreApi.v
theories/MsgConnModel.v
theories/MsgConnProofs.v
theories/MsgConnProps.v
theories/MsgConnSpec.v
theories/Np05bApi.v
theories/Np05bModel.v
theories/Np05bProofs.v
theories/Np05bProps.v
theories/Np05bSpec.v
theories/PostModel.v
theories/PostProofs.v
theories/PostProps.v
theories/PostSpec.v
theories/PrefixModel.v
theories/PrefixProps.v
theories/PrefixSpec.v
theories/PrimModel.v
theories/PrimProofs.v
theories/PrimProps.v
theories/PrimSpec.v
theories/ProtoBuildProofs.v
theories/ProtoCopyProofs.v
theories/ProtoImportProofs.v
theories/ProtoModel.v
theories/ProtoProofs.v
theories/ProtoProps.v
theories/ProtoReplayProofs.v
theories/ProtoRoundProofs.v
theories/ProtoSimProofs.v
theories/ProtoSizeProofs.v
theories/ProtoSpec.v
theories/PyEnumModel.v
theories/PyEnumProps.v
theories/PyEnumSpec.v
theories/PyStrModel.v
theories/PyStrProofs.v
theories/RecordModel.v
theories/RecordProofs.v
theories/RecordProps.v
theories/RecordSpec.v
theories/RegistryModel.v
theories/RegistryProofs.v
theories/RegistryProps.v
theories/RegistrySpec.v
theories/ScalingModel.v
theories/ScalingProofs.v
theories/ScalingProps.v
theories/ScalingSpec.v
theories/ScpiModel.v
theories/ScpiProofs.v
theories/ScpiProps.v
theories/ScpiSpec.v
theories/ServeApi.v
theories/ServeModel.v
theories/ServeProofs.v
theories/ServeProps.v
theories/ServeSpec.v
theories/SetupModel.v
theories/SetupProps.v
theories/SetupSpec.v
theories/SignalModel.v
theories/SignalProps.v
theories/SignalSpec.v
theories/SmallApi.v
theories/SrvCmdModel.v
theories/SrvCmdProps.v
theories/SrvCmdSpec.v
theories/StepModel.v
theories/StepProofs.v
theories/StepProps.v
theories/StepSpec.v
theories/StringModel.v
theories/StringProofs.v
theories/StringProps.v
theories/StructModel.v
theories/StructProofs.v
theories/StructProps.v
theories/StructSpec.v
theories/SubprocApi.v
theories/SubprocModel.v
theories/SubprocProofs.v
theories/SubprocProps.v
theories/SubprocSpec.v
theories/TabModel.v
theories/TabProofs.v
theories/TabProps.v
theories/TabSpec.v
theories/TaskModel.v
theories/TaskProofs.v
theories/TaskProps.v
theories/TaskSpec.v
theories/TcpModel.v
theories/TcpProofs.v
theories/TcpProps.v
theories/TcpSpec.v
theories/TelnetModel.v
theories/TelnetProofs.v
theories/TelnetProps.v
theories/TelnetSpec.v
theories/TftpModel.v
theories/TftpProofs.v
theories/TftpProps.v
theories/TftpSpec.v
theories/TuiModel.v
theories/TuiProps.v
theories/TuiSpec.v
theories/TypeModel.v
theories/TypeProofs.v
theories/TypeProps.v
theories/TypeSpec.v
theories/UdpModel.v
theories/UdpProofs.v
theories/UdpProps.v
theories/UdpSpec.v
theories/UiCountModel.v
theories/UiCountProps.v
theories/UiCountSpec.v
theories/Utf8Model.v
theories/Utf8Proofs.v
theories/WebModel.v
theories/WebProps.v
theories/WebSpec.v
theories/WsModel.v
theories/WsProps.v
theories/WsSpec.v
