-Q theories Verif

theories/ApiModel.v
theories/ApiProofs.v
theories/ApiProps.v
theories/ApiSpec.v
theories/Base.v
theories/BlkModel.v
theories/BlkProofs.v
theories/BlkProps.v
theories/BlkSpec.v
theories/BroadcastModel.v
theories/BroadcastProofs.v
theories/BroadcastProps.v
theories/BroadcastSpec.v
theories/CapModel.v
theories/CapProofs.v
theories/CapProps.v
theories/CapSpec.v
theories/CfgIpProofs.v
theories/CfgModel.v
theories/CfgProofs.v
theories/CfgProps.v
theories/CfgSpec.v
theories/CliModel.v
theories/CliProofs.v
theories/CliProps.v
theories/CliSpec.v
theories/ConnModel.v
theories/ConnProofs.v
theories/ConnProps.v
theories/ConnSpec.v
theories/CsvModel.v
theories/CsvProofs.v
theories/CsvProps.v
theories/CsvSpec.v
theories/CutModel.v
theories/CutProofs.v
theories/CutProps.v
theories/CutSpec.v
theories/DjsModel.v
theories/DjsProofs.v
theories/DjsProps.v
theories/DjsSpec.v
theories/DscBest.v
theories/DscModel.v
theories/DscProofs.v
theories/DscProps.v
theories/DscSpec.v
theories/DynModel.v
theories/DynProofs.v
theories/DynProps.v
theories/DynSpec.v
theories/E2eModel.v
theories/E2eProofs.v
theories/E2eProps.v
theories/E2eSpec.v
theories/EvtModel.v
theories/EvtProofs.v
theories/EvtProps.v
theories/EvtSpec.v
theories/ExpMapModel.v
theories/ExpMapProofs.v
theories/ExpMapProps.v
theories/ExpMapSpec.v
theories/EyeModel.v
theories/EyeProofs.v
theories/EyeProps.v
theories/EyeSpec.v
theories/FdsModel.v
theories/FdsProofs.v
theories/FdsProps.v
theories/FdsSpec.v
theories/FindModel.v
theories/FindProofs.v
theories/FindProps.v
theories/FindSpec.v
theories/FltModel.v
theories/FltProofs.v
theories/FltProps.v
theories/FltSpec.v
theories/FmtModel.v
theories/FmtProofs.v
theories/FmtProps.v
theories/FmtSpec.v
theories/FrmModel.v
theories/FrmProofs.v
theories/FrmProps.v
theories/FrmSpec.v
theories/GateModel.v
theories/GateProofs.v
theories/GateProps.v
theories/GateSpec.v
theories/HomModel.v
theories/HomProofs.v
theories/HomProps.v
theories/HomSpec.v
theories/LckModel.v
theories/LckProofs.v
theories/LckProps.v
theories/LckSpec.v
theories/LegModel.v
theories/LegProofs.v
theories/LegProps.v
theories/LegSpec.v
theories/LifeModel.v
theories/LifeProofs.v
theories/LifeProps.v
theories/LifeSpec.v
theories/LogModel.v
theories/LogProofs.v
theories/LogProps.v
theories/LogSpec.v
theories/ManModel.v
theories/ManProofs.v
theories/ManProps.v
theories/ManSpec.v
theories/McModel.v
theories/McProofs.v
theories/McProps.v
theories/McSpec.v
theories/MemModel.v
theories/MemProofs.v
theories/MemProps.v
theories/MemSpec.v
theories/MonModel.v
theories/MonProofs.v
theories/MonProps.v
theories/MonSpec.v
theories/MsgModel.v
theories/MsgProofs.v
theories/MsgProps.v
theories/MsgSpec.v
theories/MtxModel.v
theories/MtxProofs.v
theories/MtxProps.v
theories/MtxSpec.v
theories/NamModel.v
theories/NamProofs.v
theories/NamProps.v
theories/NamSpec.v
theories/NetModel.v
theories/NetProofs.v
theories/NetProps.v
theories/NetSpec.v
theories/PathModel.v
theories/PathProofs.v
theories/PathProps.v
theories/PathSpec.v
theories/PbExt.v
theories/PbModel.v
theories/PbProofs.v
theories/PbRound.v
theories/PbSpec.v
theories/PolModel.v
theories/PolProofs.v
theories/PolProps.v
theories/PolSpec.v
theories/PrcModel.v
theories/PrcProofs.v
theories/PrcProps.v
theories/PrcSpec.v
theories/PsvProofs.v
theories/PsvProps.v
theories/PsvSpec.v
theories/RacModel.v
theories/RacProofs.v
theories/RacProps.v
theories/RacSpec.v
theories/RdModel.v
theories/RdProofs.v
theories/RdProps.v
theories/RdSpec.v
theories/RegModel.v
theories/RegProofs.v
theories/RegProps.v
theories/RegSpec.v
theories/RpcModel.v
theories/RpcProofs.v
theories/RpcProps.v
theories/RpcSpec.v
theories/Sample.v
theories/SdsModel.v
theories/SdsProofs.v
theories/SdsProps.v
theories/SdsSpec.v
theories/SerLongProofs.v
theories/SerModel.v
theories/SerProofs.v
theories/SerProps.v
theories/SerSpec.v
theories/SerWire.v
theories/SevModel.v
theories/SevProofs.v
theories/SevProps.v
theories/SevSpec.v
theories/ShmModel.v
theories/ShmProofs.v
theories/ShmProps.v
theories/ShmRegModel.v
theories/ShmRegProofs.v
theories/ShmRegProps.v
theories/ShmRegSpec.v
theories/ShmSpec.v
theories/ShtModel.v
theories/ShtProofs.v
theories/ShtProps.v
theories/ShtSpec.v
theories/SlpModel.v
theories/SlpProofs.v
theories/SlpProps.v
theories/SlpSpec.v
theories/SpnModel.v
theories/SpnProofs.v
theories/SpnProps.v
theories/SpnSpec.v
theories/SrvModel.v
theories/SrvProofs.v
theories/SrvProps.v
theories/SrvSpec.v
theories/StrModel.v
theories/StrProofs.v
theories/StrProps.v
theories/StrSpec.v
theories/SvlModel.v
theories/SvlProofs.v
theories/SvlProps.v
theories/SvlSpec.v
theories/TcpModel.v
theories/TcpProofs.v
theories/TcpProps.v
theories/TcpSpec.v
theories/TgModel.v
theories/TgProofs.v
theories/TgProps.v
theories/TgSpec.v
theories/ThrModel.v
theories/ThrProofs.v
theories/ThrProps.v
theories/ThrSpec.v
theories/TmrModel.v
theories/TmrProofs.v
theories/TmrProps.v
theories/TmrSpec.v
theories/UdpModel.v
theories/UdpProofs.v
theories/UdpProps.v
theories/UdpSpec.v
theories/VisModel.v
theories/VisProofs.v
theories/VisProps.v
theories/VisSpec.v
theories/WldAll.v
theories/WldEnd.v
theories/WldModel.v
theories/WldProofs.v
theories/WldProps.v
theories/WldSpec.v
theories/WldWay.v
theories/WrModel.v
theories/WrProofs.v
theories/WrProps.v
theories/WrSpec.v
theories/WsvEndProofs.v
theories/WsvExProofs.v
theories/WsvModel.v
theories/WsvNetProofs.v
theories/WsvProofs.v
theories/WsvProps.v
theories/WsvSpec.v
theories/WsvWayProofs.v
