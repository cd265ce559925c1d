-Q theories Verif
theories/Base/Tac.v
theories/Base/Bytes.v
theories/Base/Text.v
theories/Base/Res.v
theories/Base/Str.v
theories/Base/Parse.v
theories/Base/Loop.v
theories/Model/Gtid.v
theories/Model/GtidMaria.v
theories/Model/Codec.v
theories/Model/Values.v
theories/Model/Decimal.v
theories/Model/Cells.v
theories/Model/TableMap.v
theories/Model/Rows.v
theories/Model/Events.v
theories/Model/Client.v
theories/Model/Reader.v
theories/Model/Commands.v
theories/Model/Responses.v
theories/Model/Channel.v
theories/Model/Session.v
theories/Model/SessionIo.v
theories/Model/Open.v
theories/Spec/GtidSpec.v
theories/Proofs/GtidProofs.v
theories/Proofs/GtidSetProofs.v
theories/Proofs/GtidLastProofs.v
theories/Spec/GtidMariaSpec.v
theories/Spec/GtidTextSpec.v
theories/Proofs/GtidMariaProofs.v
theories/Spec/ClientSpec.v
theories/Spec/StreamSpec.v
theories/Spec/CodecSpec.v
theories/Proofs/CodecProofs.v
theories/Spec/EventSpec.v
theories/Proofs/EventProofs.v
theories/Proofs/EmptyProofs.v
theories/Proofs/EventSafe.v
theories/Spec/CellSpec.v
theories/Spec/TableSpec.v
theories/Spec/RowSpec.v
theories/Spec/SafeSpec.v
theories/Spec/ReaderSpec.v
theories/Spec/ChannelSpec.v
theories/Spec/SessionSpec.v
theories/Spec/CommandSpec.v
theories/Spec/Sha.v
theories/Proofs/DecimalProofs.v
theories/Proofs/CellProofs.v
theories/Proofs/TableProofs.v
theories/Proofs/RowProofs.v
theories/Proofs/DecodeSafe.v
theories/Proofs/RiskProofs.v
theories/Proofs/OnceProofs.v
theories/Proofs/ReaderProofs.v
theories/Proofs/ChannelProofs.v
theories/Proofs/ReplicateProofs.v
theories/Proofs/ResultProofs.v
theories/Proofs/PlanProofs.v
theories/Spec/PanicSpec.v
theories/Proofs/LoginProofs.v
theories/Proofs/PanicProofs.v
theories/Proofs/CommandProofs.v
theories/Props/CodecProps.v
theories/Props/EventProps.v
theories/Props/CellProps.v
theories/Props/RowProps.v
theories/Props/ReaderProps.v
theories/Props/CommandProps.v
theories/Props/ChannelProps.v
theories/Props/SessionProps.v
theories/Proofs/ClientProofs.v
theories/Proofs/SessionProofs.v
theories/Proofs/PositionProofs.v
theories/Proofs/CommitTotal.v
theories/Proofs/StreamProofs.v
theories/Spec/TransportSpec.v
theories/Spec/ForwardSpec.v
theories/Proofs/TransportProofs.v
theories/Props/TransportProps.v
theories/Proofs/BuildProofs.v
theories/Props/BuildProps.v
theories/Props/GtidProps.v
theories/Proofs/GtidTextProofs.v
theories/Spec/GtidExactSpec.v
theories/Proofs/GtidExactProofs.v
theories/Props/GtidMariaProps.v
theories/Props/GtidTextProps.v
theories/Props/ClientProps.v
theories/Spec/PipelineSpec.v
theories/Spec/CopySpec.v
theories/Spec/StandardSpec.v
theories/Proofs/PipelineProofs.v
theories/Props/PipelineProps.v
theories/Spec/CheckpointSpec.v
theories/Spec/SizeSpec.v
theories/Proofs/CheckpointProofs.v
theories/Proofs/SizeProofs.v
theories/Props/CheckpointProps.v
theories/Props/FileProps.v
theories/Props/SizeProps.v
theories/Spec/MariaSessionSpec.v
theories/Proofs/MariaSessionProofs.v
theories/Props/MariaProps.v
theories/Spec/GroupSessionSpec.v
theories/Proofs/GroupSessionProofs.v
theories/Props/GroupProps.v
theories/Props/OpenProps.v
theories/Props/NumberProps.v
theories/Props/TablesProps.v
theories/Props/CharsetProps.v
theories/Props/SaidProps.v
theories/Props/CopyProps.v
theories/Props/ErrorProps.v
theories/Props/EndProps.v
theories/Props/StandardProps.v
theories/Props/SslProps.v
theories/Spec/PositionSessionSpec.v
theories/Props/PlaceProps.v
theories/Props/AnyStreamProps.v
theories/Spec/AnyFileSpec.v
theories/Props/AnyFileProps.v
theories/Spec/FailoverSpec.v
theories/Spec/StepSpec.v
theories/Spec/RestartSpec.v
theories/Props/FailoverProps.v
theories/Props/StepProps.v
theories/Props/RestartProps.v
theories/Props/PanicProps.v
theories/Props/SecretProps.v
theories/Proofs/ForwardProofs.v
theories/Props/ForwardProps.v
theories/Spec/StopSpec.v
theories/Proofs/StopProofs.v
theories/Proofs/StopTableProofs.v
theories/Proofs/StopCellProofs.v
theories/Proofs/StopRowProofs.v
theories/Props/StopProps.v
theories/Spec/TalkSpec.v
theories/Spec/SockSpec.v
theories/Proofs/TalkProofs.v
theories/Proofs/TalkPacketProofs.v
theories/Proofs/TalkLoginProofs.v
theories/Proofs/TalkSetupProofs.v
theories/Proofs/TalkLeftProofs.v
theories/Proofs/SockProofs.v
theories/Proofs/SockLeftProofs.v
theories/Props/TalkProps.v
theories/Props/SockProps.v
theories/Model/FileIo.v
theories/Spec/FileSpec.v
theories/Proofs/FileProofs.v
theories/Props/FileIoProps.v
theories/Props/UnitTests.v
