-Q theories Verif
theories/Base.v
theories/BitLemmas.v
theories/CrcModel.v
theories/CrcProofs.v
theories/CrcProps.v
theories/CobsModel.v
theories/CobsSpec.v
theories/CobsProofs.v
theories/CobsProps.v
theories/CoreModel.v
theories/TabModel.v
theories/TabSpec.v
theories/TabProofs.v
theories/TabProps.v
theories/HeaderModel.v
theories/HeaderSpec.v
theories/HeaderProofs.v
theories/HeaderProps.v
theories/SerialModel.v
theories/SerialSpec.v
theories/SerialProofs.v
theories/SerialProps.v
theories/FilterModel.v
theories/CanIdModel.v
theories/CanSpec.v
theories/CanIdProofs.v
theories/FilterProofs.v
theories/CanIdProps.v
theories/CanTxModel.v
theories/CanTxSpec.v
theories/CanTxProofs.v
theories/CanQueueModel.v
theories/CanQueueSpec.v
theories/CanQueueProofs.v
theories/CanFlushProofs.v
theories/CanTxProps.v
theories/CanQueueProps.v
theories/CanRxModel.v
theories/CanRxSpec.v
theories/CanRxProofs.v
theories/CanRxProps.v
theories/UdpModel.v
theories/UdpSpec.v
theories/UdpTxProofs.v
theories/UdpRxProofs.v
theories/UdpProps.v
theories/EncModel.v
theories/EncSpec.v
theories/EncWriteProofs.v
theories/EncReadProofs.v
theories/EncProps.v
theories/BlsModel.v
theories/BlsSpec.v
theories/BlsProofs.v
theories/BlsProps.v
theories/GenModel.v
theories/GenSpec.v
theories/GenLenProofs.v
theories/GenSizeProofs.v
theories/GenBoundProofs.v
theories/GenWriteProofs.v
theories/GenReadProofs.v
theories/GenDecProofs.v
theories/DataTypes.v
theories/GenProps.v
theories/NodeModel.v
theories/NodeSpec.v
theories/NodeProofs.v
theories/NodeProps.v
theories/BasicModel.v
theories/BasicSpec.v
theories/BasicProofs.v
theories/BasicProps.v
theories/RegModel.v
theories/RegSpec.v
theories/RegProofs.v
theories/RegDecProofs.v
theories/RegProps.v
theories/PnpModel.v
theories/PnpSpec.v
theories/PnpProofs.v
theories/PnpProps.v
theories/PolySpec.v
theories/PolyProofs.v
theories/PolyProps.v
theories/TextModel.v
theories/TextSpec.v
theories/TextProofs.v
theories/TextProps.v
theories/ExprModel.v
theories/ExprSpec.v
theories/ExprProofs.v
theories/ExprProps.v
theories/ExprSafeSpec.v
theories/ExprSafeProofs.v
theories/ExprSafeProps.v
theories/PkgModel.v
theories/PkgSpec.v
theories/PkgProofs.v
theories/PkgProps.v
theories/CompModel.v
theories/CompSpec.v
theories/CompProofs.v
theories/CompFileProofs.v
theories/CompProps.v
theories/CompAcceptSpec.v
theories/CompAcceptProofs.v
theories/CompAcceptProps.v
theories/ParseModel.v
theories/ParseSpec.v
theories/PegProofs.v
theories/ParseWordProofs.v
theories/ParseSoundProofs.v
theories/ParseStartProofs.v
theories/ParseLiteralProofs.v
theories/ParseCompleteProofs.v
theories/ParseFileProofs.v
theories/ParseProps.v
theories/ParseCompProps.v
theories/CodeModel.v
theories/CodeSpec.v
theories/CodeProofs.v
theories/CodeItemProofs.v
theories/CodeNameProofs.v
theories/CodeEnumProofs.v
theories/CodePlaceProofs.v
theories/CodeProps.v
theories/BxModel.v
theories/BxSpec.v
theories/BxProofs.v
theories/BxQueueProofs.v
theories/BxRxProofs.v
theories/BxProps.v
theories/BusSpec.v
theories/BusProofs.v
theories/BusProps.v
theories/WarnModel.v
theories/WarnSpec.v
theories/WarnProofs.v
theories/WarnProps.v
theories/DocModel.v
theories/DocSpec.v
theories/DocProofs.v
theories/DocFileProofs.v
theories/DocProps.v
theories/ImgModel.v
theories/ImgSpec.v
theories/ImgProofs.v
theories/ImgProps.v
theories/SidModel.v
theories/SidSpec.v
theories/SidProofs.v
theories/SidProps.v
theories/MacroModel.v
theories/MacroSpec.v
theories/MacroProofs.v
theories/MacroProps.v
theories/FlexModel.v
theories/FlexSpec.v
theories/FlexProofs.v
theories/FlexProps.v
theories/FlexRxModel.v
theories/FlexRxSpec.v
theories/FlexRxProofs.v
theories/FlexRxProps.v
theories/BxPnpModel.v
theories/BxPnpSpec.v
theories/BxPnpProofs.v
theories/BxPnpProps.v
theories/FilterToolModel.v
theories/FilterToolSpec.v
theories/FilterToolProofs.v
theories/FilterToolProps.v
theories/GenerateToolModel.v
theories/GenerateToolSpec.v
theories/GenerateToolProofs.v
theories/GenerateToolProps.v
theories/NetSpec.v
theories/NetProofs.v
theories/NetProps.v
theories/CanNodeModel.v
theories/CanNodeSpec.v
theories/CanNodeProofs.v
theories/CanNodeTotalProofs.v
theories/CanNodeProps.v
theories/SerialNodeModel.v
theories/SerialNodeSpec.v
theories/SerialNodeProofs.v
theories/SerialLinkProofs.v
theories/SerialNodeProps.v
theories/UdpNodeModel.v
theories/UdpNodeSpec.v
theories/UdpNodeProofs.v
theories/UdpNodeProps.v
theories/UdpCallSpec.v
theories/UdpCallProofs.v
theories/UdpCallProps.v
theories/UdpLossSpec.v
theories/UdpLossProofs.v
theories/UdpLossProps.v
